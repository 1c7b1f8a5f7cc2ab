(** Views are within their buffers (ShareModel.v). *)
From Coq Require Import Lia.
From Verif Require Import Base BaseLemmas HelpersModel GridModel GetitemModel ShareModel ShareProofs ShareProofs2.
Open Scope R_scope.

Definition ok_view (w : world) (v : view) : Prop := forall p, In p (v_pos v) -> (p < length (nth (v_buf v) (w_crds w) []))%nat.
Definition ok_cells (w : world) (c : nat * list (list nat)) : Prop := forall row p, In row (snd c) -> In p row -> (p < length (nth (fst c) (w_vals w) []))%nat.
Definition ok_obj (w : world) (o : robj) : Prop := (forall x v, cached x o = Some v -> ok_view w v) /\ (forall c, o_cells o = Some c -> ok_cells w c).
Definition wf (w : world) : Prop := forall j o, nth_error (w_objs w) j = Some o -> ok_obj w o.
Definition fatter (w w' : world) : Prop := (forall b, (length (nth b (w_crds w) []) <= length (nth b (w_crds w') []))%nat) /\ (forall b, (length (nth b (w_vals w) []) <= length (nth b (w_vals w') []))%nat).
Lemma fatter_refl w : fatter w w. Proof. split; intros b; apply le_n. Qed.
Lemma fatter_trans a b c : fatter a b -> fatter b c -> fatter a c.
Proof. intros [A B] [C D]. split; intros n; eapply Nat.le_trans; [apply A|apply C|apply B|apply D]. Qed.
Lemma app_fat {A} (l m : list (list A)) b : (length (nth b l []) <= length (nth b (l ++ m) []))%nat.
Proof. destruct (Nat.lt_ge_cases b (length l)) as [L|G]; [rewrite app_nth1 by exact L; apply le_n|]. rewrite nth_overflow by exact G. cbn. lia. Qed.
Lemma ok_view_mono w w' v : fatter w w' -> ok_view w v -> ok_view w' v.
Proof. intros [F _] O p I. eapply Nat.lt_le_trans; [apply O, I|apply F]. Qed.
Lemma ok_cells_mono w w' c : fatter w w' -> ok_cells w c -> ok_cells w' c.
Proof. intros [_ F] O row p I J. eapply Nat.lt_le_trans; [eapply O; eauto|apply F]. Qed.
Lemma ok_obj_mono w w' o : fatter w w' -> ok_obj w o -> ok_obj w' o.
Proof. intros F [A B]. split; [intros x v C; eapply ok_view_mono; eauto|intros c C; eapply ok_cells_mono; eauto]. Qed.
Lemma wf_objs w w' : fatter w w' -> w_objs w' = w_objs w -> wf w -> wf w'.
Proof. intros F E V j o Q. rewrite E in Q. eapply ok_obj_mono; eauto. Qed.
Lemma wf_set w k o : wf w -> ok_obj w o -> wf (set_o w k o).
Proof.
  intros V O j o' E. change (ok_obj w o'). cbn [set_o w_objs] in E. destruct (Nat.eq_dec k j) as [<-|N]; [|rewrite nth_error_set_nth_neq in E by exact N; eauto].
  assert (L : (k < length (w_objs w))%nat) by (rewrite <- (set_nth_length k o); apply nth_error_Some; congruence). rewrite nth_error_set_nth_eq in E by exact L. injection E as <-. exact O.
Qed.
Lemma wf_add w o : wf w -> ok_obj w o -> wf (add_o w o).
Proof.
  intros V O j o' E. change (ok_obj w o'). cbn [add_o w_objs] in E. destruct (Nat.lt_ge_cases j (length (w_objs w))) as [L|G]; [rewrite nth_error_app1 in E by exact L; eauto|]. rewrite nth_error_app2 in E by exact G.
  destruct (j - length (w_objs w))%nat as [|[|n]]; try discriminate E. injection E as <-. exact O.
Qed.
Lemma lim_fat w l b w1 : new_lim w l = (b, w1) -> wf w -> wf w1 /\ fatter w w1.
Proof. intros E V. injection E as <- <-. assert (F : fatter w (mkworld (w_lims w ++ [l]) (w_crds w) (w_vals w) (w_objs w))) by (split; intros b; apply le_n). split; [eapply wf_objs; eauto|exact F]. Qed.
Lemma crd_fat w l v w1 : new_crd w l = (v, w1) -> wf w -> wf w1 /\ fatter w w1 /\ ok_view w1 v.
Proof.
  intros E V. unfold new_crd in E. injection E as <- <-. assert (F : fatter w (mkworld (w_lims w) (w_crds w ++ [l]) (w_vals w) (w_objs w))) by (split; intros b; [apply app_fat|apply le_n]). split; [eapply wf_objs; eauto|]. split; [exact F|].
  intros p I. cbn [v_pos v_buf w_crds] in *. apply in_seq in I. rewrite app_nth2, Nat.sub_diag by lia. cbn [nth]. lia.
Qed.
Lemma row_positions_bound {A} (rows : list (list A)) : forall n row p, In row (row_positions n rows) -> In p row -> (p < n + length (concat rows))%nat.
Proof.
  induction rows as [|r rows IH]; intros n row p I J; [destruct I|]. cbn [row_positions] in I. cbn [concat]. rewrite app_length. destruct I as [<-|I]; [apply in_seq in J; lia|]. specialize (IH _ _ _ I J). lia.
Qed.
Lemma val_fat w rows c w1 : new_val w rows = (c, w1) -> wf w -> wf w1 /\ fatter w w1 /\ ok_cells w1 c.
Proof.
  intros E V. unfold new_val in E. injection E as <- <-. assert (F : fatter w (mkworld (w_lims w) (w_crds w) (w_vals w ++ [concat rows]) (w_objs w))) by (split; intros b; [apply le_n|apply app_fat]). split; [eapply wf_objs; eauto|]. split; [exact F|].
  intros row p I J. cbn [fst snd w_vals] in *. rewrite app_nth2, Nat.sub_diag by lia. cbn [nth]. exact (row_positions_bound rows 0 row p I J).
Qed.
Lemma ok_with_cached w x o v : ok_obj w o -> ok_view w v -> ok_obj w (with_cached x o (Some v)).
Proof. intros [A B] O. split; [|intros c C; apply B; destruct x; exact C]. intros y u C. destruct x, y; cbn in C; try (injection C as <-; exact O); [apply (A false)|apply (A true)]; exact C. Qed.
Lemma get_c_wf x k w w' r : get_c x k w = (w', r) -> wf w -> wf w' /\ fatter w w' /\ (forall v, r = Ok v -> ok_view w' v).
Proof.
  intros E V. unfold get_c in E. destruct (nth_error (w_objs w) k) as [o|] eqn:Ek; [|injection E as <- <-; split; [exact V|]; split; [apply fatter_refl|discriminate]].
  destruct (cached x o) as [v|] eqn:C; [injection E as <- <-; split; [exact V|]; split; [apply fatter_refl|]; intros v' Q; injection Q as <-; exact (proj1 (V k o Ek) x v C)|].
  destruct (centers _) as [l|]; [|injection E as <- <-; split; [exact V|]; split; [apply fatter_refl|discriminate]].
  destruct (new_crd w l) as [v w1] eqn:N. destruct (crd_fat _ _ _ _ N V) as (V1 & F & O). injection E as <- <-. split; [|split].
  - apply wf_set; [exact V1|]. apply ok_with_cached; [|exact O]. eapply ok_obj_mono; [exact F|]. eapply V; eauto.
  - exact F.
  - intros v' Q. injection Q as <-. exact O.
Qed.
Lemma picked_in {A} ps (l : list A) a : In a (picked ps l) -> In a l.
Proof. unfold picked. intros I. apply in_flat_map in I. destruct I as (p & _ & I). destruct (nth_error l (Z.to_nat p)) as [b|] eqn:E; [|destruct I]. destruct I as [<-|[]]. eapply nth_error_In; eauto. Qed.
Lemma ok_bare w o xl yl c : (forall d, c = Some d -> ok_cells w d) -> ok_obj w (bare o xl yl c).
Proof. intros H. split; [intros [] v C; discriminate C|exact H]. Qed.
Lemma ok_with_lim w x o b : ok_obj w o -> ok_obj w (with_lim x o b).
Proof. intros [A B]. split; [|intros c C; apply B; destruct x; exact C]. intros y u C. destruct x, y; cbn in C; try discriminate C; [apply (A false)|apply (A true)]; exact C. Qed.
Lemma ok_bind_lim w w0 x o b : ok_obj w o -> ok_obj w (bind_lim x o w0 b).
Proof. unfold bind_lim. destruct (req2 _ _); auto using ok_with_lim. Qed.
Lemma ok_with_cells w o c nx ny : ok_obj w o -> ok_cells w c -> ok_obj w (with_cells o c nx ny).
Proof. intros [A B] O. unfold with_cells. destruct (_ && _)%bool; (split; [intros x v C; destruct x; try discriminate C; first [exact (A true v C)|exact (A false v C)]|intros d C; injection C as <-; exact O]). Qed.
Lemma at_positions_length {A} (f : A -> A) ps l : length (at_positions f ps l) = length l.
Proof. unfold at_positions. rewrite map_length, combine_length, seq_length. lia. Qed.
Lemma set_fat {A} n (v : list A) l b : length v = length (nth n l []) -> (length (nth b l []) <= length (nth b (set_nth n v l) []))%nat.
Proof.
  intros E. destruct (Nat.lt_ge_cases b (length l)) as [L|G]; [|rewrite nth_overflow by exact G; cbn; lia]. destruct (Nat.eq_dec n b) as [->|N].
  - erewrite (nth_error_nth (set_nth b v l)) by (now apply nth_error_set_nth_eq). lia.
  - apply Nat.eq_le_incl. rewrite <- !nth_default_eq. unfold nth_default. now rewrite nth_error_set_nth_neq.
Qed.
Lemma shift_axis_fat x o d w : fatter w (shift_axis x o d w).
Proof.
  unfold shift_axis. destruct d as [d|]; [|apply fatter_refl]. destruct (cached x o) as [v|]; [|split; intros b; apply le_n]. split; intros b; [|apply le_n]. cbn [shift_crd shift_lim w_crds]. apply set_fat, at_positions_length.
Qed.
Lemma change_val_fat f b ps w : fatter w (change_val f b ps w).
Proof. split; intros n; [apply le_n|]. cbn [change_val w_vals]. apply set_fat, at_positions_length. Qed.
Lemma step_wf p w : wf w -> wf (fst (step p w)).
Proof.
  intros V. destruct p; cbn [step].
  - unfold step_new. destruct (parse_xy _ _ _ _) as [[[xl kx] ?]|]; [|exact V]. destruct (parse_xy _ _ _ _) as [[[yl ky] ?]|]; [|exact V].
    destruct (new_val w rows) as [c w1] eqn:N1. destruct (new_lim w1 xl) as [bx w2] eqn:N2. destruct (new_lim w2 yl) as [by_ w3] eqn:N3.
    destruct (val_fat _ _ _ _ N1 V) as (V1 & F1 & O1). destruct (lim_fat _ _ _ _ N2 V1) as (V2 & F2). destruct (lim_fat _ _ _ _ N3 V2) as (V3 & F3).
    assert (H : forall (l : option (list R)) u r w4, wf u -> (match l with Some l => let (v, w) := new_crd u l in (Some v, w) | None => (None, u) end) = (r, w4) -> wf w4 /\ fatter u w4 /\ forall v, r = Some v -> ok_view w4 v).
    { intros [l|] u r w4 Vu E; [|injection E as <- <-; split; [exact Vu|]; split; [apply fatter_refl|discriminate]]. destruct (new_crd u l) as [v u1] eqn:N. destruct (crd_fat _ _ _ _ N Vu) as (A & B & C). injection E as <- <-. split; [exact A|]. split; [exact B|]. intros v' Q. injection Q as <-. exact C. }
    match goal with |- context [match kx with Some l => _ | None => _ end] => idtac end.
    destruct (match kx with Some l => let (v, w) := new_crd w3 l in (Some v, w) | None => (None, w3) end) as [vx w4] eqn:N4. destruct (H _ _ _ _ V3 N4) as (V4 & F4 & O4).
    destruct (match ky with Some l => let (v, w) := new_crd w4 l in (Some v, w) | None => (None, w4) end) as [vy w5] eqn:N5. destruct (H _ _ _ _ V4 N5) as (V5 & F5 & O5).
    cbn [fst]. apply wf_add; [exact V5|]. split.
    + intros [] v C; cbn in C; [eapply ok_view_mono; [exact F5|]; auto|auto].
    + intros d C. cbn in C. injection C as <-. eapply ok_cells_mono; [|exact O1]. eauto using fatter_trans.
  - destruct (nth_error (w_objs w) k) as [o|]; [|exact V]. destruct (new_val w rows) as [c w1] eqn:N1. destruct (val_fat _ _ _ _ N1 V) as (V1 & F1 & O1). cbn [fst]. apply wf_add; [exact V1|]. split; [intros [] v C; discriminate C|intros d C; injection C as <-; exact O1].
  - destruct (nth_error (w_objs w) k) as [o|]; [|exact V]. destruct (o_cells o); [|exact V]. cbn [fst]. apply wf_add; [exact V|]. apply ok_bare. discriminate.
  - destruct (nth_error (w_objs w) k) as [o|]; [|exact V]. destruct (new_lim w _) as [bx w1] eqn:N1. destruct (new_lim w1 _) as [by_ w2] eqn:N2. destruct (lim_fat _ _ _ _ N1 V) as (V1 & F1). destruct (lim_fat _ _ _ _ N2 V1) as (V2 & F2).
    destruct (o_cells o) as [c0|]; [destruct (new_val w2 _) as [c w3] eqn:N3; destruct (val_fat _ _ _ _ N3 V2) as (V3 & F3 & O3)|]; cbn [fst]; (apply wf_add; [assumption|apply ok_bare]); [intros d Q; injection Q as <-; exact O3|discriminate].
  - unfold step_sub. destruct (nth_error (w_objs w) k) as [o|] eqn:Ek; [|exact V]. destruct (o_cells o) as [c|] eqn:C; [|exact V]. destruct (as_slice i) as [[[i0 i1] istep]|]; [|exact V]. destruct (as_slice j) as [[[j1 j2] jstep]|]; [|exact V].
    destruct (get_c true k w) as [w1 vx] eqn:G1. destruct (get_c_wf _ _ _ _ _ G1 V) as (V1 & F1 & O1). destruct vx as [vx|]; [|exact V1]. destruct (positions _ j1 j2 jstep) as [cols|]; [|exact V1].
    destruct (get_c false k w1) as [w2 vy] eqn:G2. destruct (get_c_wf _ _ _ _ _ G2 V1) as (V2 & F2 & O2). destruct vy as [vy|]; [|exact V2]. destruct (positions _ i0 i1 istep) as [rows|]; [|exact V2]. cbv zeta. destruct (sub_coordinates _ _ _ _); [|exact V2]. destruct (sub_coordinates _ _ _ _); [|exact V2].
    destruct (parse_xy _ _ _ _) as [[[xl kx] ?]|]; [|exact V2]. destruct (parse_xy _ _ _ _) as [[[yl ky] ?]|]; [|exact V2].
    destruct (new_lim w2 xl) as [bx w3] eqn:N3. destruct (new_lim w3 yl) as [by_ w4] eqn:N4. destruct (lim_fat _ _ _ _ N3 V2) as (V3 & F3). destruct (lim_fat _ _ _ _ N4 V3) as (V4 & F4). cbn [fst]. apply wf_add; [exact V4|].
    assert (P : forall u ps, ok_view w4 u -> ok_view w4 (mkview (v_buf u) (picked ps (v_pos u)))) by (intros u ps H p I; apply (H p), (picked_in _ _ _ I)).
    split.
    + intros [] v Q; cbn in Q; [destruct kx; [|discriminate Q]|destruct ky; [|discriminate Q]]; injection Q as <-; apply P; [eapply ok_view_mono; [|apply O1; reflexivity]|eapply ok_view_mono; [|apply O2; reflexivity]]; eauto using fatter_trans.
    + intros d Q. cbn in Q. injection Q as <-. intros row p I J. cbn [fst snd] in *. apply in_map_iff in I. destruct I as (r & <- & _). apply picked_in in J.
      assert (OC : ok_cells w4 c) by (eapply ok_cells_mono; [|apply (proj2 (V k o Ek)); exact C]; eauto 6 using fatter_trans).
      destruct (Nat.lt_ge_cases (Z.to_nat r) (length (snd c))) as [L|G]; [|rewrite nth_overflow in J by exact G; destruct J]. eapply OC; [apply nth_In, L|exact J].
  - destruct (get_c x k w) as [w1 r] eqn:G. cbn [fst]. apply (get_c_wf _ _ _ _ _ G V).
  - destruct (nth_error (w_objs w) k) as [o|] eqn:Ek; [|exact V]. destruct (parse_limits l); [|exact V]. destruct (req2 _ _); [exact V|]. destruct (new_lim w _) as [b w1] eqn:N1. destruct (lim_fat _ _ _ _ N1 V) as (V1 & F1). cbn [fst]. apply wf_set; [exact V1|]. apply ok_with_lim. eapply ok_obj_mono; [exact F1|]. eapply V; eauto.
  - destruct (nth_error (w_objs w) k) as [o|] eqn:Ek; [|exact V]. destruct (o_cells o); [|exact V]. destruct (new_val w _) as [b w1] eqn:N1. destruct (val_fat _ _ _ _ N1 V) as (V1 & F1 & O1). cbn [fst]. apply wf_set; [exact V1|]. apply ok_with_cells; [|exact O1]. eapply ok_obj_mono; [exact F1|]. eapply V; eauto.
  - destruct (nth_error (w_objs w) k) as [o|]; [|exact V]. destruct (o_cells o) as [c0|]; [|exact V]. destruct (nth_error (nth r (snd c0) []) c); [|exact V]. cbn [fst]. eapply wf_objs; [apply change_val_fat| |exact V]. reflexivity.
  - destruct (nth_error (w_objs w) k) as [o|]; [|exact V].
    assert (VS : wf (shift_axis false o dy (shift_axis true o dx w))) by (eapply wf_objs; [eapply fatter_trans; apply shift_axis_fat| |exact V]; rewrite (proj1 (shift_axis_objs _ _ _ _)); apply shift_axis_objs).
    destruct dz as [d|], (o_cells o) as [c0|]; cbn [fst]; auto. eapply wf_objs; [apply change_val_fat| |exact VS]. reflexivity.
  - unfold step_resample. destruct (get_c true g w) as [w1 r1] eqn:G1. destruct (get_c_wf _ _ _ _ _ G1 V) as (V1 & F1 & _). destruct (get_c false g w1) as [w2 r2] eqn:G2. destruct (get_c_wf _ _ _ _ _ G2 V1) as (V2 & F2 & _).
    destruct (nth_error (w_objs w2) k) as [o|] eqn:Ek; [|exact V2]. destruct (nth_error (w_objs w2) g) as [og|] eqn:Eg; [|exact V2]. destruct (o_cells o); [|exact V2].
    destruct (new_val w2 rows) as [c w3] eqn:N3. destruct (val_fat _ _ _ _ N3 V2) as (V3 & F3 & O3).
    match goal with |- context [get_c true g ?z] => set (w4 := z) end.
    assert (V4 : wf w4) by (apply wf_set; [exact V3|]; apply ok_bind_lim, ok_bind_lim, ok_with_cells; [eapply ok_obj_mono; [exact F3|]; eapply V2; eauto|exact O3]).
    destruct (get_c true g w4) as [w5 r5] eqn:G5. destruct (get_c_wf _ _ _ _ _ G5 V4) as (V5 & F5 & O5). destruct r5 as [vx|]; [|exact V5].
    destruct (get_c false g w5) as [w6 r6] eqn:G6. destruct (get_c_wf _ _ _ _ _ G6 V5) as (V6 & F6 & O6). destruct r6 as [vy|]; [|exact V6].
    destruct (nth_error (w_objs w6) k) as [o6|] eqn:E6; [|exact V6]. cbn [fst]. apply wf_set; [exact V6|]. apply ok_with_cached; [apply ok_with_cached; [eapply V6; eauto|]|apply O6; reflexivity].
    eapply ok_view_mono; [exact F6|]. apply O5. reflexivity.
Qed.
Lemma run_wf h : wf (run h).
Proof. induction h as [|p h IH] using rev_ind; [intros [|j] o E; discriminate E|]. rewrite run_snoc. now apply step_wf. Qed.

(** ** What in place addition does to a view *)
Lemma at_positions_nth {A} (f : A -> A) ps l p d : (p < length l)%nat -> nth p (at_positions f ps l) d = if existsb (Nat.eqb p) ps then f (nth p l d) else nth p l d.
Proof.
  intros L. unfold at_positions. set (g := fun q : nat * A => if existsb (Nat.eqb (fst q)) ps then f (snd q) else snd q).
  rewrite (nth_indep _ d (g (0%nat, d))) by (rewrite map_length, combine_length, seq_length; lia). rewrite map_nth, combine_nth by apply seq_length. rewrite seq_nth by exact L. reflexivity.
Qed.
Lemma nth_set_nth_eq {A} (d : A) n v l : (n < length l)%nat -> nth n (set_nth n v l) d = v.
Proof. intros L. erewrite nth_error_nth; [reflexivity|]. now apply nth_error_set_nth_eq. Qed.
Lemma in_existsb p ps : In p ps -> existsb (Nat.eqb p) ps = true.
Proof. intros I. apply existsb_exists. exists p. split; [exact I|apply Nat.eqb_refl]. Qed.
Lemma buffer_bound {A} (l : list (list A)) b p : (p < length (nth b l []))%nat -> (b < length l)%nat.
Proof. intros L. destruct (Nat.lt_ge_cases b (length l)) as [?|G]; [assumption|]. rewrite nth_overflow in L by exact G. cbn in L. lia. Qed.
Lemma shift_crd_own w v d : ok_view w v -> crd_at (shift_crd v d w) v = map (fun x => x + d) (crd_at w v).
Proof.
  intros O. unfold crd_at. rewrite map_map. apply map_ext_in. intros p I. cbn [shift_crd w_crds]. pose proof (O p I) as L. rewrite nth_set_nth_eq by (eapply buffer_bound; eauto). rewrite at_positions_nth by exact L. now rewrite in_existsb.
Qed.
Lemma change_val_own f w c : ok_cells w c -> val_at (change_val f (fst c) (concat (snd c)) w) c = map (map f) (val_at w c).
Proof.
  intros O. unfold val_at. rewrite map_map. apply map_ext_in. intros row I. rewrite map_map. apply map_ext_in. intros p J. cbn [change_val w_vals]. pose proof (O row p I J) as L. rewrite nth_set_nth_eq by (eapply buffer_bound; eauto). rewrite at_positions_nth by exact L. rewrite in_existsb; [reflexivity|].
  apply in_concat. eauto.
Qed.
