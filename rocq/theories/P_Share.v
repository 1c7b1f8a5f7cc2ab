(** Property C123: rasters and grids that share memory. *)
From Coq Require Import Lia.
From Verif Require Import Base BaseLemmas HelpersModel GridModel GetitemModel ShareModel ShareProofs ShareProofs2.
Open Scope R_scope.

(** the object that an operation changes *)
Definition changes (p : op) : option nat :=
  match p with OLim k _ _ | OCells k _ | OCell k _ _ _ | OShift k _ _ _ | OResample k _ _ => Some k | ONew _ _ _ | OWith _ _ | OGrid _ | OCopy _ | OSub _ _ _ | ORead _ _ => None end.
(** shift, and assignment to cells *)
Definition in_place (p : op) : bool := match p with OShift _ _ _ _ | OCell _ _ _ _ => true | _ => false end.
(** what is seen of the object j is the same *)
Definition unchanged (w w' : world) (j : nat) : Prop := limits w' j = limits w j /\ (forall x, coordinates x w' j = coordinates x w j) /\ values w' j = values w j.
Lemma unchanged_refl w j : unchanged w w j. Proof. repeat split. Qed.
Lemma unchanged_trans w1 w2 w3 j : unchanged w1 w2 j -> unchanged w2 w3 j -> unchanged w1 w3 j.
Proof. intros (A & B & C) (A' & B' & C'). split; [congruence|]. split; [intros x; rewrite B'; apply B|congruence]. Qed.

(** ** Growing heaps *)
Definition valid (w : world) : Prop := forall t j o b, nth_error (w_objs w) j = Some o -> In b (refs t o) -> (b < hl t w)%nat.
Lemma owns_valid w : (forall t, exists fams own, owns t w fams own) -> valid w.
Proof. intros V t j o b E I. destruct (V t) as (fams & own & (L & F & H)). destruct (H j o b E I) as (f & _ & B). rewrite <- L. apply nth_error_Some. congruence. Qed.
Lemma valid_owns w t : valid w -> owns t w (repeat 0%nat (length (w_objs w))) (repeat 0%nat (hl t w)).
Proof.
  intros V. split; [apply repeat_length|]. split; [apply repeat_length|]. intros j o b E I. exists 0%nat. split; apply nth_error_repeat; [apply nth_error_Some; congruence|eapply V; eauto].
Qed.
Lemma valid_run h : valid (run h).
Proof. apply owns_valid. intros t. destruct (run_owns t h) as [own O]. eauto. Qed.
Lemma valid_ref t w j o b : valid w -> nth_error (w_objs w) j = Some o -> In b (refs t o) -> (b < hl t w)%nat.
Proof. intros V. apply V. Qed.
Definition grows (w w' : world) : Prop := exists a b c, w_lims w' = w_lims w ++ a /\ w_crds w' = w_crds w ++ b /\ w_vals w' = w_vals w ++ c.
Lemma grows_refl w : grows w w. Proof. exists [], [], []. rewrite !app_nil_r. auto. Qed.
Lemma grows_trans w1 w2 w3 : grows w1 w2 -> grows w2 w3 -> grows w1 w3.
Proof. intros (a & b & c & A & B & C) (a' & b' & c' & A' & B' & C'). exists (a ++ a'), (b ++ b'), (c ++ c'). rewrite A', B', C', A, B, C, !app_assoc. auto. Qed.
(** objects that refer to buffers with the same contents look the same *)
Lemma frame_limits w w' j o o' : nth_error (w_objs w) j = Some o -> nth_error (w_objs w') j = Some o' -> o_xl o' = o_xl o -> o_yl o' = o_yl o -> (forall b, In b (refs PLim o) -> nth b (w_lims w') (0, 0) = nth b (w_lims w) (0, 0)) -> limits w' j = limits w j.
Proof. intros E E' X Y H. unfold limits. rewrite E, E'. cbn [option_map]. unfold lim_at. rewrite X, Y, !H by (cbn; auto). reflexivity. Qed.
Lemma frame_coordinates x w w' j o : nth_error (w_objs w) j = Some o -> nth_error (w_objs w') j = Some o -> (forall b, In b (refs PLim o) -> nth b (w_lims w') (0, 0) = nth b (w_lims w) (0, 0)) -> (forall b, In b (refs PCrd o) -> nth b (w_crds w') [] = nth b (w_crds w) []) -> coordinates x w' j = coordinates x w j.
Proof.
  intros E E' HL HC. unfold coordinates. rewrite E, E'. cbn [option_map]. f_equal. destruct (cached x o) as [v|] eqn:C.
  - unfold crd_at. rewrite HC; [reflexivity|]. cbn [refs]. apply in_or_app. unfold cached in C. destruct x; rewrite C; [left|right]; now left.
  - unfold o_axis, o_xaxis, o_yaxis, lim_at. destruct x; rewrite HL by (cbn; auto); reflexivity.
Qed.
Lemma frame_values w w' j o o' : nth_error (w_objs w) j = Some o -> nth_error (w_objs w') j = Some o' -> o_cells o' = o_cells o -> (forall b, In b (refs PVal o) -> nth b (w_vals w') [] = nth b (w_vals w) []) -> values w' j = values w j.
Proof.
  intros E E' Q H. unfold values. rewrite E, E'. cbn [option_map]. f_equal. rewrite Q. destruct (o_cells o) as [c|] eqn:C; [|reflexivity]. cbn [option_map]. f_equal. unfold val_at. rewrite H by (cbn [refs]; rewrite C; now left). reflexivity.
Qed.
Lemma grows_lim w w' b : grows w w' -> (b < hl PLim w)%nat -> nth b (w_lims w') (0, 0) = nth b (w_lims w) (0, 0).
Proof. intros (a & _ & _ & E & _) H. rewrite E. now apply app_nth1. Qed.
Lemma grows_crd w w' b : grows w w' -> (b < hl PCrd w)%nat -> nth b (w_crds w') [] = nth b (w_crds w) [].
Proof. intros (_ & a & _ & _ & E & _) H. rewrite E. now apply app_nth1. Qed.
Lemma grows_val w w' b : grows w w' -> (b < hl PVal w)%nat -> nth b (w_vals w') [] = nth b (w_vals w) [].
Proof. intros (_ & _ & a & _ & _ & E) H. rewrite E. now apply app_nth1. Qed.
Lemma grows_unchanged w w' j : valid w -> grows w w' -> nth_error (w_objs w') j = nth_error (w_objs w) j -> unchanged w w' j.
Proof.
  intros V G E. destruct (nth_error (w_objs w) j) as [o|] eqn:Eo.
  2:{ unfold unchanged, limits, coordinates, values. rewrite E, Eo. auto. }
  split; [|split].
  - apply (frame_limits _ _ _ o o); auto. intros b I. apply grows_lim; [exact G|]. eapply valid_ref; eauto.
  - intros x. apply (frame_coordinates _ _ _ _ o); auto; intros b I; [apply grows_lim|apply grows_crd]; try exact G; eapply valid_ref; eauto.
  - apply (frame_values _ _ _ o o); auto. intros b I. apply grows_val; [exact G|]. eapply valid_ref; eauto.
Qed.
Lemma map_nth_seq {A} (d : A) l : map (fun p => nth p l d) (seq 0 (length l)) = l.
Proof. induction l as [|a l IH]; [reflexivity|]. cbn [length seq map nth]. f_equal. rewrite <- seq_shift, map_map. exact IH. Qed.
Lemma get_c_unchanged x k w w' r : valid w -> get_c x k w = (w', r) -> valid w' /\ grows w w' /\ (forall j, unchanged w w' j) /\
  (forall v, r = Ok v -> coordinates x w k = Some (Ok (crd_at w' v)) /\ exists o, nth_error (w_objs w') k = Some o /\ cached x o = Some v) /\
  (forall o, nth_error (w_objs w) k = Some o -> exists o', nth_error (w_objs w') k = Some o' /\ o_cells o' = o_cells o /\ o_xl o' = o_xl o /\ o_yl o' = o_yl o /\ o_nx o' = o_nx o /\ o_ny o' = o_ny o /\ cached (negb x) o' = cached (negb x) o).
Proof.
  intros V E. assert (V' : valid w') by (apply owns_valid; intros t; pose proof (valid_owns w t V) as O; destruct (get_c_owns t _ _ _ _ _ _ _ O E) as (own' & O' & _); eauto). split; [exact V'|]. destruct (get_c_objs _ _ _ _ _ E) as [_ S].
  unfold get_c in E. destruct (nth_error (w_objs w) k) as [o|] eqn:Ek.
  2:{ injection E as <- <-. split; [apply grows_refl|]. split; [intros; apply unchanged_refl|]. split; [discriminate|]. intros o Q. discriminate Q. }
  destruct (cached x o) as [v|] eqn:Ec.
  { injection E as <- <-. split; [apply grows_refl|]. split; [intros; apply unchanged_refl|]. split.
    - intros v' Q. injection Q as <-. split; [unfold coordinates; rewrite Ek; cbn [option_map]; now rewrite Ec|exists o; auto].
    - intros o' Q. injection Q as <-. exists o. auto 10. }
  destruct (centers (o_axis x w o)) as [l|e] eqn:El.
  2:{ injection E as <- <-. split; [apply grows_refl|]. split; [intros; apply unchanged_refl|]. split; [discriminate|]. intros o' Q. injection Q as <-. exists o. auto 10. }
  cbn [new_crd] in E. set (v := mkview (length (w_crds w)) (seq 0 (length l))) in *. injection E as <- <-.
  match goal with |- grows w ?z /\ _ => set (w1 := z) in * end. assert (G : grows w w1) by (exists [], [l], []; rewrite !app_nil_r; auto). split; [exact G|].
  assert (Ek' : nth_error (w_objs w1) k = Some (with_cached x o (Some v))) by (apply nth_error_set_nth_eq; cbn [w_objs]; apply nth_error_Some; congruence).
  assert (Cv : crd_at w1 v = l). { unfold crd_at, v. cbn [v_buf v_pos w1 set_o w_crds]. rewrite app_nth2 by lia. rewrite Nat.sub_diag. cbn [nth]. apply map_nth_seq. }
  assert (Cx : coordinates x w k = Some (Ok l)) by (unfold coordinates; rewrite Ek; cbn [option_map]; now rewrite Ec, El). split; [|split].
  - intros j. destruct (Nat.eq_dec j k) as [->|N]; [|apply grows_unchanged; auto]. split; [|split].
    + apply (frame_limits _ _ _ o (with_cached x o (Some v))); auto; destruct x; reflexivity.
    + intros y. destruct (Bool.bool_dec y x) as [->|Ny].
      * rewrite Cx. unfold coordinates. rewrite Ek'. cbn [option_map]. replace (cached x (with_cached x o (Some v))) with (Some v) by (destruct x; reflexivity). now rewrite Cv.
      * unfold coordinates. rewrite Ek, Ek'. cbn [option_map]. f_equal. replace (cached y (with_cached x o (Some v))) with (cached y o) by (destruct x, y; try reflexivity; contradiction Ny; reflexivity).
        destruct (cached y o) as [u|] eqn:Eu.
        -- f_equal. unfold crd_at. rewrite (grows_crd w w1 _ G); [reflexivity|]. apply (valid_ref PCrd w k o); auto. cbn [refs]. apply in_or_app. unfold cached in Eu. destruct y; rewrite Eu; [left|right]; now left.
        -- destruct y, x; try (contradiction Ny; reflexivity); reflexivity.
    + apply (frame_values _ _ _ o (with_cached x o (Some v))); auto; try (destruct x; reflexivity).
  - intros v' Q. injection Q as <-. rewrite Cv. split; [exact Cx|]. eexists. split; [exact Ek'|]. destruct x; reflexivity.
  - intros o' Q. injection Q as <-. eexists. split; [exact Ek'|]. destruct x; cbn; auto 10.
Qed.
Lemma valid_grows w w' : valid w -> grows w w' -> w_objs w' = w_objs w -> valid w'.
Proof.
  intros V (a & b & c & A & B & C) E t j o n Ej I. rewrite E in Ej. pose proof (V t j o n Ej I) as Q. destruct t; cbn [hl] in *; rewrite ?A, ?B, ?C, app_length; lia.
Qed.
Lemma new_lim_grows w l b w1 : new_lim w l = (b, w1) -> grows w w1 /\ w_objs w1 = w_objs w /\ b = length (w_lims w) /\ lim_at w1 b = l.
Proof. intros E. injection E as <- <-. split; [exists [l], [], []; rewrite !app_nil_r; auto|]. split; [reflexivity|]. split; [reflexivity|]. unfold lim_at. cbn. rewrite app_nth2, Nat.sub_diag by lia. reflexivity. Qed.
Lemma new_crd_grows w l v w1 : new_crd w l = (v, w1) -> grows w w1 /\ w_objs w1 = w_objs w.
Proof. intros E. injection E as <- <-. split; [exists [], [l], []; rewrite !app_nil_r; auto|]. reflexivity. Qed.
Lemma new_val_grows w l c w1 : new_val w l = (c, w1) -> grows w w1 /\ w_objs w1 = w_objs w /\ (fst c < length (w_vals w1))%nat.
Proof. intros E. injection E as <- <-. split; [exists [], [], [concat l]; rewrite !app_nil_r; auto|]. split; [reflexivity|]. cbn. rewrite app_length. cbn. lia. Qed.
Lemma set_o_grows w k o : grows w (set_o w k o). Proof. exists [], [], []. cbn. rewrite !app_nil_r. auto. Qed.
Lemma add_o_grows w o : grows w (add_o w o). Proof. exists [], [], []. cbn. rewrite !app_nil_r. auto. Qed.
Lemma set_o_valid w k o : valid w -> (forall t b, In b (refs t o) -> (b < hl t w)%nat) -> valid (set_o w k o).
Proof.
  intros V H t j o' b Ej I. change (hl t (set_o w k o)) with (hl t w). cbn [set_o w_objs] in Ej. destruct (Nat.eq_dec k j) as [<-|N]; [|rewrite nth_error_set_nth_neq in Ej by exact N; eapply V; eauto].
  assert (L : (k < length (w_objs w))%nat) by (rewrite <- (set_nth_length k o); apply nth_error_Some; congruence). rewrite nth_error_set_nth_eq in Ej by exact L. injection Ej as <-. auto.
Qed.
Lemma add_unchanged w w' o j : valid w -> grows w w' -> w_objs w' = w_objs w -> (j < length (w_objs w))%nat -> unchanged w (add_o w' o) j.
Proof.
  intros V G E L. apply grows_unchanged; [exact V|apply (grows_trans _ w'); [exact G|apply add_o_grows]|]. cbn [add_o w_objs]. rewrite nth_error_app1 by congruence. now rewrite E.
Qed.
Lemma set_unchanged w w' k o j : valid w -> grows w w' -> w_objs w' = w_objs w -> j <> k -> unchanged w (set_o w' k o) j.
Proof.
  intros V G E L. apply grows_unchanged; [exact V|apply (grows_trans _ w'); [exact G|apply set_o_grows]|]. cbn [set_o w_objs]. rewrite nth_error_set_nth_neq by auto. now rewrite E.
Qed.
Ltac grow := repeat match goal with
  | H : new_lim _ _ = _ |- _ => apply new_lim_grows in H; destruct H as (? & ? & _)
  | H : new_crd _ _ = _ |- _ => apply new_crd_grows in H; destruct H as (? & ?)
  | H : new_val _ _ = _ |- _ => apply new_val_grows in H; destruct H as (? & ? & _)
  end.
Lemma step_quiet p w j : valid w -> (j < length (w_objs w))%nat -> in_place p = false -> changes p <> Some j -> unchanged w (fst (step p w)) j.
Proof.
  intros V L IP CH. destruct p; try discriminate IP; cbn [step changes] in *.
  - unfold step_new. destruct (parse_xy _ _ _ _) as [[[xl kx] ?]|]; [|apply unchanged_refl]. destruct (parse_xy _ _ _ _) as [[[yl ky] ?]|]; [|apply unchanged_refl].
    destruct (new_val w rows) as [c w1] eqn:N1. destruct (new_lim w1 xl) as [bx w2] eqn:N2. destruct (new_lim w2 yl) as [by_ w3] eqn:N3.
    destruct kx as [lx|], ky as [ly|]; repeat match goal with |- context [new_crd ?w ?l] => let N := fresh in destruct (new_crd w l) eqn:N end; cbn [fst]; grow;
      (apply add_unchanged; [exact V|eauto using grows_trans|congruence|exact L]).
  - destruct (nth_error (w_objs w) k) as [o|]; [|apply unchanged_refl]. destruct (new_val w rows) as [c w1] eqn:N1. cbn [fst]. grow. apply add_unchanged; auto.
  - destruct (nth_error (w_objs w) k) as [o|]; [|apply unchanged_refl]. destruct (o_cells o); [|apply unchanged_refl]. cbn [fst]. apply add_unchanged; auto using grows_refl.
  - destruct (nth_error (w_objs w) k) as [o|]; [|apply unchanged_refl]. destruct (new_lim w _) as [bx w1] eqn:N1. destruct (new_lim w1 _) as [by_ w2] eqn:N2.
    destruct (o_cells o) as [c0|]; [destruct (new_val w2 _) as [c w3] eqn:N3|]; cbn [fst]; grow; (apply add_unchanged; [exact V|eauto using grows_trans|congruence|exact L]).
  - unfold step_sub. destruct (nth_error (w_objs w) k) as [o|]; [|apply unchanged_refl]. destruct (o_cells o); [|apply unchanged_refl]. destruct (as_slice i) as [[[i0 i1] istep]|]; [|apply unchanged_refl]. destruct (as_slice j0) as [[[j1 j2] jstep]|]; [|apply unchanged_refl].
    destruct (get_c true k w) as [w1 vx] eqn:G1. destruct (get_c_unchanged _ _ _ _ _ V G1) as (V1 & _ & U1 & _). destruct (get_c_objs _ _ _ _ _ G1) as [L1 _].
    destruct vx as [vx|]; [|apply U1]. destruct (positions _ j1 j2 jstep); [|apply U1].
    destruct (get_c false k w1) as [w2 vy] eqn:G2. destruct (get_c_unchanged _ _ _ _ _ V1 G2) as (V2 & _ & U2 & _). destruct (get_c_objs _ _ _ _ _ G2) as [L2 _].
    assert (U : unchanged w w2 j) by (eapply unchanged_trans; [apply U1|apply U2]).
    destruct vy as [vy|]; [|exact U]. destruct (positions _ i0 i1 istep); [|exact U]. cbv zeta. destruct (sub_coordinates _ _ _ _); [|exact U]. destruct (sub_coordinates _ _ _ _); [|exact U].
    destruct (parse_xy _ _ _ _) as [[[xl kx] ?]|]; [|exact U]. destruct (parse_xy _ _ _ _) as [[[yl ky] ?]|]; [|exact U].
    destruct (new_lim w2 xl) as [bx w3] eqn:N3. destruct (new_lim w3 yl) as [by_ w4] eqn:N4. cbn [fst]. apply (unchanged_trans _ w2); [exact U|]. grow. apply add_unchanged; [exact V2|eauto using grows_trans|congruence|congruence].
  - destruct (get_c x k w) as [w1 r] eqn:G. cbn [fst]. apply (get_c_unchanged _ _ _ _ _ V G).
  - assert (N : j <> k) by congruence. destruct (nth_error (w_objs w) k) as [o|]; [|apply unchanged_refl]. destruct (parse_limits l); [|apply unchanged_refl]. destruct (req2 _ _); [apply unchanged_refl|]. destruct (new_lim w _) as [b w1] eqn:N1. cbn [fst]. grow. apply set_unchanged; auto.
  - assert (N : j <> k) by congruence. destruct (nth_error (w_objs w) k) as [o|]; [|apply unchanged_refl]. destruct (o_cells o); [|apply unchanged_refl]. destruct (new_val w _) as [b w1] eqn:N1. cbn [fst]. grow. apply set_unchanged; auto.
  - assert (N : j <> k) by congruence. unfold step_resample.
    destruct (get_c true g w) as [w1 r1] eqn:G1. destruct (get_c false g w1) as [w2 r2] eqn:G2.
    destruct (get_c_unchanged _ _ _ _ _ V G1) as (V1 & _ & U1 & _). destruct (get_c_unchanged _ _ _ _ _ V1 G2) as (V2 & _ & U2 & _).
    assert (U : unchanged w w2 j) by (eapply unchanged_trans; [apply U1|apply U2]).
    destruct (nth_error (w_objs w2) k) as [o|] eqn:Ek; [|exact U]. destruct (nth_error (w_objs w2) g) as [og|] eqn:Eg; [|exact U]. destruct (o_cells o); [|exact U].
    destruct (new_val w2 rows) as [c w3] eqn:N3. apply new_val_grows in N3. destruct N3 as (G3 & E3 & C3).
    pose proof (valid_grows _ _ V2 G3 E3) as V3.
    match goal with |- context [get_c true g ?z] => set (w4 := z) end.
    assert (V4 : valid w4).
    { apply set_o_valid; [exact V3|]. intros t b I. apply refs_bind_lim in I. destruct I as [[-> ->]|I]; [apply (V3 PLim g og); [congruence|cbn; auto]|]. apply refs_bind_lim in I. destruct I as [[-> ->]|I]; [apply (V3 PLim g og); [congruence|cbn; auto]|].
      apply refs_with_cells in I. destruct I as [[-> ->]|[_ I]]; [|apply (V3 t k o); [congruence|exact I]]. exact C3. }
    assert (U4 : unchanged w w4 j) by (apply (unchanged_trans _ w2); [exact U|apply set_unchanged; auto]).
    destruct (get_c true g w4) as [w5 r5] eqn:G5. destruct (get_c_unchanged _ _ _ _ _ V4 G5) as (V5 & _ & U5 & _). destruct r5 as [vx|]; [|eapply unchanged_trans; [exact U4|apply U5]].
    destruct (get_c false g w5) as [w6 r6] eqn:G6. destruct (get_c_unchanged _ _ _ _ _ V5 G6) as (V6 & _ & U6 & _).
    assert (U6' : unchanged w w6 j) by (eapply unchanged_trans; [exact U4|]; eapply unchanged_trans; [apply U5|apply U6]). destruct r6 as [vy|]; [|exact U6'].
    destruct (nth_error (w_objs w6) k) as [o6|] eqn:E6; [|exact U6']. apply (unchanged_trans _ w6); [exact U6'|]. apply set_unchanged; auto using grows_refl.
Qed.

(** ** In place changes *)
Definition same_buffer (t : part) (w w' : world) (b : nat) : Prop :=
  match t with PLim => nth b (w_lims w') (0, 0) = nth b (w_lims w) (0, 0) | PCrd => nth b (w_crds w') [] = nth b (w_crds w) [] | PVal => nth b (w_vals w') [] = nth b (w_vals w) [] end.
Lemma same_buffer_trans t w1 w2 w3 b : same_buffer t w1 w2 b -> same_buffer t w2 w3 b -> same_buffer t w1 w3 b.
Proof. destruct t; cbn; congruence. Qed.
Lemma nth_set_nth_neq {A} (d : A) n m v l : n <> m -> nth m (set_nth n v l) d = nth m l d.
Proof. intros N. rewrite <- !nth_default_eq. unfold nth_default. now rewrite nth_error_set_nth_neq. Qed.
Lemma shift_axis_buffers x o d w t b : ~ In b (refs t o) -> same_buffer t w (shift_axis x o d w) b.
Proof.
  intros N. unfold shift_axis. destruct d as [d|]; [|destruct t; reflexivity]. destruct t.
  - assert (Q : (if x then o_xl o else o_yl o) <> b) by (intros E; apply N; cbn; destruct x; auto). destruct (cached x o); cbn; now apply nth_set_nth_neq.
  - destruct (cached x o) as [v|] eqn:C; [|reflexivity]. cbn. apply nth_set_nth_neq. intros E. apply N. cbn [refs]. apply in_or_app. unfold cached in C. destruct x; rewrite C; [left|right]; now left.
  - destruct (cached x o); reflexivity.
Qed.
Lemma change_val_buffers f o c ps w t b : o_cells o = Some c -> ~ In b (refs t o) -> same_buffer t w (change_val f (fst c) ps w) b.
Proof. intros E N. destruct t; try reflexivity. cbn. apply nth_set_nth_neq. intros Q. apply N. cbn [refs]. rewrite E. now left. Qed.
Lemma step_inplace p w k o : in_place p = true -> changes p = Some k -> nth_error (w_objs w) k = Some o ->
  w_objs (fst (step p w)) = w_objs w /\ forall t b, ~ In b (refs t o) -> same_buffer t w (fst (step p w)) b.
Proof.
  intros IP CH E. destruct p; try discriminate IP; cbn [changes] in CH; injection CH as <-; cbn [step]; rewrite E.
  - destruct (o_cells o) as [c0|] eqn:C; [|split; [reflexivity|intros [] b _; reflexivity]]. destruct (nth_error (nth r (snd c0) []) c); [|split; [reflexivity|intros [] b _; reflexivity]].
    cbn [fst]. split; [reflexivity|]. intros t b N. now apply (change_val_buffers _ o).
  - destruct (shift_axis_objs true o dx w) as [A1 _]. destruct (shift_axis_objs false o dy (shift_axis true o dx w)) as [B1 _].
    assert (Q : forall t b, ~ In b (refs t o) -> same_buffer t w (shift_axis false o dy (shift_axis true o dx w)) b) by (intros t b N; eapply same_buffer_trans; apply shift_axis_buffers; exact N).
    destruct dz as [d|], (o_cells o) as [c0|] eqn:C; cbn [fst]; try (split; [congruence|exact Q]).
    + split; [cbn [change_val w_objs]; congruence|]. intros t b N. eapply same_buffer_trans; [apply Q, N|now apply (change_val_buffers _ o)].
    + split; [reflexivity|intros [] b _; reflexivity].
Qed.
Lemma apart_refs t w fams own j k oj ok b : owns t w fams own -> nth_error fams j <> nth_error fams k -> nth_error (w_objs w) j = Some oj -> nth_error (w_objs w) k = Some ok -> In b (refs t oj) -> ~ In b (refs t ok).
Proof. intros (_ & _ & H) N Ej Ek Ij Ik. destruct (H j oj b Ej Ij) as (f & A & B). destruct (H k ok b Ek Ik) as (g & C & D). congruence. Qed.

(** ** After any history *)
Definition objects (w : world) : nat := length (w_objs w).
(** Making objects, reading, and setting limits, arrays or the coordinate system (resample) of an object do not change what is seen of the other objects. *)
Theorem share_quiet h p j : (j < objects (run h))%nat -> in_place p = false -> changes p <> Some j -> unchanged (run h) (run (h ++ [p])) j.
Proof. intros L. rewrite run_snoc. apply step_quiet; [apply valid_run|exact L]. Qed.
Print Assumptions share_quiet.
(** No operation on k changes the limits (coordinates, values) of an object j that does not share them with k: that was not made from it by the operations in [source]. *)
Theorem share_apart h p k j : (j < objects (run h))%nat -> changes p = Some k ->
  (~ together PLim h j k -> limits (run (h ++ [p])) j = limits (run h) j) /\
  (~ together PLim h j k -> ~ together PCrd h j k -> forall x, coordinates x (run (h ++ [p])) j = coordinates x (run h) j) /\
  (~ together PVal h j k -> values (run (h ++ [p])) j = values (run h) j).
Proof.
  intros L CH. destruct (in_place p) eqn:IP.
  2:{ assert (U : j <> k -> unchanged (run h) (run (h ++ [p])) j) by (intros N; apply share_quiet; auto; congruence).
      split; [|split]; intros H; [|intros _|]; (destruct (Nat.eq_dec j k) as [->|N]; [contradiction H; reflexivity|]); apply (U N). }
  rewrite run_snoc. set (w := run h) in *. destruct (nth_error (w_objs w) j) as [oj|] eqn:Ej; [|apply nth_error_None in Ej; unfold objects in L; lia].
  destruct (nth_error (w_objs w) k) as [ok|] eqn:Ek.
  2:{ assert (Q : fst (step p w) = w) by (destruct p; try discriminate IP; cbn [changes] in CH; injection CH as ->; cbn [step]; rewrite Ek; reflexivity). rewrite Q. auto. }
  destruct (step_inplace p w k ok IP CH Ek) as [EO SB].
  assert (D : forall t, ~ together t h j k -> forall b, In b (refs t oj) -> same_buffer t w (fst (step p w)) b) by (intros t N b I; apply SB; destruct (run_owns t h) as [own O]; apply (apart_refs t w (families t h) own j k oj ok b O); auto).
  assert (Ej' : nth_error (w_objs (fst (step p w))) j = Some oj) by congruence.
  split; [|split].
  - intros N. apply (frame_limits _ _ _ oj oj); auto. apply (D PLim N).
  - intros N M x. apply (frame_coordinates _ _ _ _ oj); auto; [apply (D PLim N)|apply (D PCrd M)].
  - intros N. apply (frame_values _ _ _ oj oj); auto. apply (D PVal N).
Qed.
Print Assumptions share_apart.

(** ** Which objects share: what [together] means *)
Lemma families_length t h : length (families t h) = objects (run h).
Proof. destruct (run_owns t h) as [own (_ & L & _)]. exact L. Qed.
Lemma joined_length t p fams : length (joined t p fams) = length fams.
Proof. unfold joined. destruct t, p; try reflexivity; destruct (nth_error fams k), (nth_error fams g); try reflexivity; apply map_length. Qed.
Lemma joined_bound t p fams n : (forall f, In f fams -> (f < n)%nat) -> forall f, In f (joined t p fams) -> (f < n)%nat.
Proof.
  intros H f I. unfold joined in I. destruct t, p; auto; destruct (nth_error fams k) as [a|] eqn:A; auto; destruct (nth_error fams g) as [b|] eqn:B; auto; apply in_map_iff in I; destruct I as (x & <- & I); destruct (x =? a)%nat; auto; apply H; eapply nth_error_In; eauto.
Qed.
Lemma resample_objects k g rows w : length (w_objs (fst (step (OResample k g rows) w))) = length (w_objs w).
Proof.
  cbn [step]. unfold step_resample. destruct (get_c true g w) as [w1 r1] eqn:G1. destruct (get_c false g w1) as [w2 r2] eqn:G2. destruct (get_c_objs _ _ _ _ _ G1) as [L1 _]. destruct (get_c_objs _ _ _ _ _ G2) as [L2 _].
    destruct (nth_error (w_objs w2) k); [|cbn; congruence]. destruct (nth_error (w_objs w2) g); [|cbn; congruence]. destruct (o_cells _); [|cbn; congruence]. destruct (new_val w2 rows) as [c w3] eqn:N3. grow.
    match goal with |- context [get_c true g ?z] => set (w4 := z) end. assert (L4 : length (w_objs w4) = length (w_objs w2)) by (cbn; rewrite set_nth_length; congruence).
    destruct (get_c true g w4) as [w5 r5] eqn:G5. destruct (get_c_objs _ _ _ _ _ G5) as [L5 _]. destruct r5; [|cbn; congruence]. destruct (get_c false g w5) as [w6 r6] eqn:G6. destruct (get_c_objs _ _ _ _ _ G6) as [L6 _]. destruct r6; [|cbn; congruence].
    destruct (nth_error (w_objs w6) k); cbn; rewrite ?set_nth_length; congruence.
Qed.
Lemma step_objects p w : length (w_objs (fst (step p w))) = length (w_objs w) \/ length (w_objs (fst (step p w))) = S (length (w_objs w)).
Proof.
  pose proof (fun fams own (O : owns PLim w fams own) => step_owns PLim p w fams own O) as H.
  assert (O : owns PLim w (repeat 0%nat (length (w_objs w))) (repeat 0%nat (hl PLim w)) \/ True) by auto. clear O.
  destruct p; cbn [step].
  - unfold step_new. destruct (parse_xy _ _ _ _) as [[[xl kx] ?]|]; [|auto]. destruct (parse_xy _ _ _ _) as [[[yl ky] ?]|]; [|auto]. right.
    destruct (new_val w rows) as [c w1] eqn:N1. destruct (new_lim w1 xl) as [bx w2] eqn:N2. destruct (new_lim w2 yl) as [by_ w3] eqn:N3.
    destruct kx as [lx|], ky as [ly|]; repeat match goal with |- context [new_crd ?w ?l] => let N := fresh in destruct (new_crd w l) eqn:N end; grow; cbn [fst add_o w_objs]; rewrite app_length; cbn; replace (length (w_objs w)) with (length (w_objs w3)) by congruence; try lia; try (match goal with H : w_objs ?a = w_objs w3 |- _ => rewrite H; lia end); repeat match goal with H : w_objs _ = w_objs _ |- _ => rewrite H end; lia.
  - destruct (nth_error (w_objs w) k) as [o|]; [|auto]. cbn. rewrite app_length. cbn. lia.
  - destruct (nth_error (w_objs w) k) as [o|]; [|auto]. destruct (o_cells o); [|auto]. cbn. rewrite app_length. cbn. lia.
  - destruct (nth_error (w_objs w) k) as [o|]; [|auto]. destruct (o_cells o); cbn; rewrite app_length; cbn; lia.
  - unfold step_sub. destruct (nth_error (w_objs w) k) as [o|]; [|auto]. destruct (o_cells o); [|auto]. destruct (as_slice i) as [[[i0 i1] istep]|]; [|auto]. destruct (as_slice j) as [[[j1 j2] jstep]|]; [|auto].
    destruct (get_c true k w) as [w1 vx] eqn:G1. destruct (get_c_objs _ _ _ _ _ G1) as [L1 _]. destruct vx as [vx|]; [|auto]. destruct (positions _ j1 j2 jstep); [|auto].
    destruct (get_c false k w1) as [w2 vy] eqn:G2. destruct (get_c_objs _ _ _ _ _ G2) as [L2 _]. assert (L20 : length (w_objs w2) = length (w_objs w)) by congruence. destruct vy as [vy|]; [|auto]. destruct (positions _ i0 i1 istep); [|auto]. cbv zeta.
    destruct (sub_coordinates _ _ _ _); [|auto]. destruct (sub_coordinates _ _ _ _); [|auto]. destruct (parse_xy _ _ _ _) as [[[xl kx] ?]|]; [|auto]. destruct (parse_xy _ _ _ _) as [[[yl ky] ?]|]; [|auto]. cbn. rewrite app_length. cbn. lia.
  - destruct (get_c x k w) as [w1 r] eqn:G. left. apply (get_c_objs _ _ _ _ _ G).
  - destruct (nth_error (w_objs w) k) as [o|]; [|auto]. destruct (parse_limits l); [|auto]. destruct (req2 _ _); [auto|]. cbn. rewrite set_nth_length. auto.
  - destruct (nth_error (w_objs w) k) as [o|]; [|auto]. destruct (o_cells o); [|auto]. cbn. rewrite set_nth_length. auto.
  - destruct (nth_error (w_objs w) k) as [o|] eqn:E; [|auto]. left. pose proof (step_inplace (OCell k r c v) w k o eq_refl eq_refl E) as [Q _]. cbn [step] in Q. rewrite E in Q. now rewrite Q.
  - destruct (nth_error (w_objs w) k) as [o|] eqn:E; [|auto]. left. pose proof (step_inplace (OShift k dx dy dz) w k o eq_refl eq_refl E) as [Q _]. cbn [step] in Q. rewrite E in Q. now rewrite Q.
  - left. apply resample_objects.
Qed.
Lemma families_bound t h : forall f, In f (families t h) -> (f < objects (run h))%nat.
Proof.
  induction h as [|p h IH] using rev_ind; [intros f []|]. intros f I. rewrite families_snoc in I. rewrite run_snoc. set (w := run h) in *. unfold objects in *. pose proof (joined_bound t p _ _ IH) as J. destruct (step_objects p w) as [E|E].
  - rewrite (family_none _ _ _ _ E) in I. rewrite E. auto.
  - rewrite (family_one _ _ _ _ E) in I. rewrite E. apply in_app_or in I. destruct I as [I|[<-|[]]]; [apply J in I; lia|]. destruct (source t p) as [k|]; [|lia].
    destruct (Nat.lt_ge_cases k (length (joined t p (families t h)))) as [C|C]; [|rewrite nth_overflow by exact C; lia]. pose proof (J _ (nth_In _ (length (w_objs w)) C)). lia.
Qed.
(** A new object shares limits (coordinates, values) with the object it was made from, and with what that shares them with, if the operation keeps them, ... *)
Theorem share_made t h p k j : objects (run (h ++ [p])) = S (objects (run h)) -> source t p = Some k -> (k < objects (run h))%nat -> (j < objects (run h))%nat ->
  together t (h ++ [p]) j (objects (run h)) <-> together t h j k.
Proof.
  intros E S K J. rewrite run_snoc in E. unfold together. rewrite families_snoc, (family_one _ _ _ _ E), S. rewrite joined_other by (intros; intros Q; subst p; destruct t; discriminate S).
  rewrite nth_error_app1 by (rewrite families_length; exact J). rewrite nth_error_app2 by (rewrite families_length; lia). rewrite families_length, Nat.sub_diag. cbn [nth_error].
  rewrite (nth_error_nth' (families t h) (length (w_objs (run h))) (n := k)) by (rewrite families_length; exact K). reflexivity.
Qed.
(** ... and otherwise with nothing. *)
Theorem share_fresh t h p j : objects (run (h ++ [p])) = S (objects (run h)) -> source t p = None -> (j < objects (run h))%nat -> ~ together t (h ++ [p]) j (objects (run h)).
Proof.
  intros E S J. rewrite run_snoc in E. unfold together. rewrite families_snoc, (family_one _ _ _ _ E), S. assert (LJ : length (joined t p (families t h)) = objects (run h)) by (rewrite joined_length; apply families_length).
  rewrite nth_error_app1 by lia. rewrite nth_error_app2 by lia. rewrite LJ, Nat.sub_diag. cbn [nth_error]. intros Q. apply nth_error_In in Q. apply (joined_bound t p _ _ (families_bound t h)) in Q. unfold objects in Q. lia.
Qed.
(** Other operations than resample do not change what objects share, ... *)
Theorem share_kept t h p i j : (i < objects (run h))%nat -> (j < objects (run h))%nat -> (forall k g rows, p <> OResample k g rows) -> together t (h ++ [p]) i j <-> together t h i j.
Proof.
  intros I J N. unfold together. rewrite families_snoc. destruct (step_objects p (run h)) as [E|E]; [rewrite (family_none _ _ _ _ E)|rewrite (family_one _ _ _ _ E)]; rewrite joined_other by exact N; [reflexivity|].
  rewrite !nth_error_app1 by (rewrite families_length; assumption). reflexivity.
Qed.
(** ... and k.resample(g) joins what shares with k and what shares with g. *)
Theorem share_resample t h k g rows i j : t <> PVal -> (k < objects (run h))%nat -> (g < objects (run h))%nat -> (i < objects (run h))%nat -> (j < objects (run h))%nat ->
  together t (h ++ [OResample k g rows]) i j <-> together t h i j \/ (together t h i k /\ together t h j g) \/ (together t h i g /\ together t h j k).
Proof.
  intros T K G I J. unfold together. rewrite families_snoc, (family_none _ _ _ _ (resample_objects k g rows (run h))). unfold objects in *.
  assert (N : forall n, (n < length (w_objs (run h)))%nat -> exists f, nth_error (families t h) n = Some f) by (intros n L; destruct (nth_error (families t h) n) eqn:E; [eauto|apply nth_error_None in E; rewrite families_length in E; unfold objects in E; lia]).
  destruct (N k K) as [a A]. destruct (N g G) as [b B]. destruct (N i I) as [x X]. destruct (N j J) as [y Y].
  replace (joined t (OResample k g rows) (families t h)) with (map (fun f => if (f =? a)%nat then b else f) (families t h)) by (destruct t; cbn [joined]; rewrite ?A, ?B; try reflexivity; contradiction).
  rewrite !nth_error_map, A, B, X, Y. cbn [option_map].
  assert (S : forall u v : nat, Some u = Some v <-> u = v) by (intros u v; split; congruence). rewrite !S. destruct (Nat.eqb_spec x a), (Nat.eqb_spec y a); subst; intuition congruence.
Qed.
Print Assumptions share_resample.
