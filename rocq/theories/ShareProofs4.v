(** Views have no position twice (ShareModel.v). *)
From Coq Require Import Lia.
From Verif Require Import Base BaseLemmas HelpersModel GridModel GetitemModel P_Getitem ShareModel ShareProofs ShareProofs2 ShareProofs3.
Open Scope R_scope.

Lemma positions_set n a b c ps : (0 <= n)%Z -> positions n a b c = Ok ps -> NoDup ps /\ forall p, In p ps -> (0 <= p < n)%Z.
Proof.
  intros N E. assert (S : selection n (ISlice a b c) = Ok ps) by exact E. destruct (selection_parts n _ ps N S) as (a' & b' & st & _ & _ & _ & Z0 & A & RG). split; [|exact RG].
  apply (NoDup_nth ps 0%Z). intros i j I J Q. rewrite (A i I), (A j J) in Q. nia.
Qed.
Lemma picked_nodup {A} ps (l : list A) : NoDup ps -> (forall p, In p ps -> (0 <= p)%Z) -> NoDup l -> NoDup (picked ps l).
Proof.
  intros NP PP NL. unfold picked. induction ps as [|p ps IH]; [constructor|]. inversion NP; subst. cbn [flat_map]. destruct (nth_error l (Z.to_nat p)) as [a|] eqn:E; [|apply IH; [assumption|intros; apply PP; now right]].
  cbn [app]. constructor; [|apply IH; [assumption|intros; apply PP; now right]]. intros I. apply in_flat_map in I. destruct I as (q & IQ & I). destruct (nth_error l (Z.to_nat q)) as [b|] eqn:F; [|destruct I]. destruct I as [->|[]].
  assert (Q : Z.to_nat p = Z.to_nat q) by (apply (proj1 (NoDup_nth_error l) NL); [apply nth_error_Some; congruence|congruence]). apply Z2Nat.inj in Q; [|apply PP; now left|apply PP; now right]. congruence.
Qed.
Lemma nodup_left {A} (l m : list A) : NoDup (l ++ m) -> NoDup l.
Proof. induction l as [|a l IH]; intros N; [constructor|]. cbn in N. inversion N; subst. constructor; [intros I; apply H1, in_or_app; now left|auto]. Qed.
Lemma nodup_right {A} (l m : list A) : NoDup (l ++ m) -> NoDup m.
Proof. induction l as [|a l IH]; intros N; [exact N|]. cbn in N. inversion N; subst. auto. Qed.
Lemma concat_nodup_row {A} (l : list (list A)) r : NoDup (concat l) -> NoDup (nth r l []).
Proof.
  revert r. induction l as [|a l IH]; intros [|r] N; cbn [concat nth] in *; try exact N; [eapply nodup_left; eauto|apply IH; eapply nodup_right; eauto].
Qed.
Lemma app_nodup_disjoint {A} (l m : list A) x : NoDup (l ++ m) -> In x l -> In x m -> False.
Proof. induction l as [|a l IH]; intros N I J; [destruct I|]. cbn in N. inversion N; subst. destruct I as [->|I]; [apply H1, in_or_app; now right|eauto]. Qed.
Lemma in_nth_concat {A} (l : list (list A)) r x : In x (nth r l []) -> In x (concat l).
Proof. revert r. induction l as [|a l IH]; intros [|r] I; try destruct I; cbn [concat]; apply in_or_app; [left; exact I|right; eapply IH; exact I]. Qed.
Lemma concat_nodup_rows {A} (l : list (list A)) : NoDup (concat l) -> forall r q x, In x (nth r l []) -> In x (nth q l []) -> r = q.
Proof.
  induction l as [|a l IH]; intros N r q x I J; [destruct r; destruct I|]. cbn [concat] in N. destruct r as [|r], q as [|q]; cbn [nth] in *; [reflexivity| | |f_equal; eapply IH; eauto; eapply nodup_right; eauto];
    exfalso; eapply app_nodup_disjoint; eauto using in_nth_concat.
Qed.
Lemma nodup_app {A} (l m : list A) : NoDup l -> NoDup m -> (forall x, In x l -> In x m -> False) -> NoDup (l ++ m).
Proof.
  intros L M D. induction l as [|a l IH]; [exact M|]. inversion L; subst. cbn. constructor; [intros I; apply in_app_or in I; destruct I as [I|I]; [contradiction|apply (D a); [now left|exact I]]|]. apply IH; [assumption|]. intros x I J. apply (D x); [now right|exact J].
Qed.
Lemma row_positions_concat {A} (rows : list (list A)) : forall n, concat (row_positions n rows) = seq n (length (concat rows)).
Proof. induction rows as [|r rows IH]; intros n; [reflexivity|]. cbn [row_positions concat]. rewrite IH, app_length, seq_app. reflexivity. Qed.

Definition nd_obj (o : robj) : Prop := (0 <= o_nx o)%Z /\ (0 <= o_ny o)%Z /\ (forall x v, cached x o = Some v -> NoDup (v_pos v)) /\ (forall c, o_cells o = Some c -> NoDup (concat (snd c))).
Definition nd (w : world) : Prop := forall j o, nth_error (w_objs w) j = Some o -> nd_obj o.
Lemma nd_objs w w' : w_objs w' = w_objs w -> nd w -> nd w'.
Proof. intros E N j o Q. rewrite E in Q. eauto. Qed.
Lemma nd_set w k o : nd w -> nd_obj o -> nd (set_o w k o).
Proof.
  intros V O j o' E. cbn [set_o w_objs] in E. destruct (Nat.eq_dec k j) as [<-|N]; [|rewrite nth_error_set_nth_neq in E by exact N; eauto].
  assert (L : (k < length (w_objs w))%nat) by (rewrite <- (set_nth_length k o); apply nth_error_Some; congruence). rewrite nth_error_set_nth_eq in E by exact L. injection E as <-. exact O.
Qed.
Lemma nd_add w o : nd w -> nd_obj o -> nd (add_o w o).
Proof.
  intros V O j o' E. cbn [add_o w_objs] in E. destruct (Nat.lt_ge_cases j (length (w_objs w))) as [L|G]; [rewrite nth_error_app1 in E by exact L; eauto|]. rewrite nth_error_app2 in E by exact G.
  destruct (j - length (w_objs w))%nat as [|[|n]]; try discriminate E. injection E as <-. exact O.
Qed.
Lemma nd_with_cached x o v : nd_obj o -> NoDup (v_pos v) -> nd_obj (with_cached x o (Some v)).
Proof.
  intros (A & B & C & D) N. split; [destruct x; exact A|]. split; [destruct x; exact B|]. split; [|intros c E; apply D; destruct x; exact E].
  intros y u E. destruct x, y; cbn in E; try (injection E as <-; exact N); [apply (C false)|apply (C true)]; exact E.
Qed.
Lemma get_c_nd x k w w' r : get_c x k w = (w', r) -> nd w -> nd w' /\ forall v, r = Ok v -> NoDup (v_pos v).
Proof.
  intros E V. unfold get_c in E. destruct (nth_error (w_objs w) k) as [o|] eqn:Ek; [|injection E as <- <-; split; [exact V|discriminate]].
  destruct (cached x o) as [v|] eqn:C; [injection E as <- <-; split; [exact V|]; intros v' Q; injection Q as <-; destruct (V k o Ek) as (_ & _ & N & _); eauto|].
  destruct (centers _) as [l|]; [|injection E as <- <-; split; [exact V|discriminate]]. cbn [new_crd] in E. injection E as <- <-. split.
  - apply nd_set; [exact V|]. apply nd_with_cached; [eapply V; eauto|apply seq_NoDup].
  - intros v Q. injection Q as <-. apply seq_NoDup.
Qed.
Lemma nd_bare o xl yl c : nd_obj o -> (forall d, c = Some d -> NoDup (concat (snd d))) -> nd_obj (bare o xl yl c).
Proof. intros (A & B & _ & _) H. split; [exact A|]. split; [exact B|]. split; [intros [] v C; discriminate C|exact H]. Qed.
Lemma nd_with_lim x o b : nd_obj o -> nd_obj (with_lim x o b).
Proof.
  intros (A & B & C & D). split; [destruct x; exact A|]. split; [destruct x; exact B|]. split; [|intros c E; apply D; destruct x; exact E].
  intros y u E. destruct x, y; cbn in E; try discriminate E; [apply (C false)|apply (C true)]; exact E.
Qed.
Lemma nd_bind_lim w0 x o b : nd_obj o -> nd_obj (bind_lim x o w0 b).
Proof. unfold bind_lim. destruct (req2 _ _); auto using nd_with_lim. Qed.
Lemma new_val_nd {A} w rows c w1 (n : A) : new_val w rows = (c, w1) -> NoDup (concat (snd c)) /\ w_objs w1 = w_objs w.
Proof. intros E. unfold new_val in E. injection E as <- <-. cbn [snd]. rewrite row_positions_concat. split; [apply seq_NoDup|reflexivity]. Qed.
Lemma nd_with_cells o c nx ny : nd_obj o -> (0 <= nx)%Z -> (0 <= ny)%Z -> NoDup (concat (snd c)) -> nd_obj (with_cells o c nx ny).
Proof.
  intros (A & B & C & D) X Y N. unfold with_cells. destruct (_ && _)%bool; (split; [exact X|]; split; [exact Y|]; split; [intros x v E; destruct x; try discriminate E; first [exact (C true v E)|exact (C false v E)]|intros d E; injection E as <-; exact N]).
Qed.
Lemma step_nd p w : nd w -> nd (fst (step p w)).
Proof.
  intros V. destruct p; cbn [step].
  - unfold step_new. destruct (parse_xy _ _ _ _) as [[[xl kx] ?]|]; [|exact V]. destruct (parse_xy _ _ _ _) as [[[yl ky] ?]|]; [|exact V].
    destruct (new_val w rows) as [c w1] eqn:N1. destruct (new_val_nd _ _ _ _ tt N1) as [O1 E1].
    assert (SZ : (0 <= size_x rows)%Z /\ (0 <= size_y rows)%Z) by (unfold size_x, size_y; lia). destruct SZ as [SX SY].
    destruct kx as [lx|], ky as [ly|]; cbn [new_lim new_crd fst w_objs]; (apply nd_add; [eapply nd_objs; [|exact V]; cbn [w_objs]; exact E1|]; split; [exact SX|]; split; [exact SY|]; split; [intros ax v C; destruct ax; cbn in C; try discriminate C; injection C as <-; apply seq_NoDup|intros d C; injection C as <-; exact O1]).
  - destruct (nth_error (w_objs w) k) as [o|]; [|exact V]. destruct (new_val w rows) as [c w1] eqn:N1. destruct (new_val_nd _ _ _ _ tt N1) as [O1 E1]. cbn [fst]. apply nd_add; [eapply nd_objs; eauto|]. unfold nd_obj. cbn. unfold size_x, size_y. split; [lia|]. split; [lia|]. split; [intros [] v C; discriminate C|intros d C; injection C as <-; exact O1].
  - destruct (nth_error (w_objs w) k) as [o|] eqn:Ek; [|exact V]. destruct (o_cells o); [|exact V]. cbn [fst]. apply nd_add; [exact V|]. apply nd_bare; [eauto|discriminate].
  - destruct (nth_error (w_objs w) k) as [o|] eqn:Ek; [|exact V]. cbn [new_lim]. destruct (o_cells o) as [c0|]; cbn [fst].
    + match goal with |- context [new_val ?a ?b] => destruct (new_val a b) as [c w3] eqn:N3 end. destruct (new_val_nd _ _ _ _ tt N3) as [O3 E3]. cbn [fst]. apply nd_add; [eapply nd_objs; [exact E3|exact V]|apply nd_bare; [eauto|intros d Q; injection Q as <-; exact O3]].
    + apply nd_add; [exact V|apply nd_bare; [eauto|discriminate]].
  - unfold step_sub. destruct (nth_error (w_objs w) k) as [o|] eqn:Ek; [|exact V]. destruct (o_cells o) as [c|] eqn:C; [|exact V]. destruct (as_slice i) as [[[i0 i1] istep]|]; [|exact V]. destruct (as_slice j) as [[[j1 j2] jstep]|]; [|exact V].
    destruct (V k o Ek) as (NX & NY & _ & NC). specialize (NC c C).
    destruct (get_c true k w) as [w1 vx] eqn:G1. destruct (get_c_nd _ _ _ _ _ G1 V) as (V1 & O1). destruct vx as [vx|]; [|exact V1]. destruct (positions _ j1 j2 jstep) as [cols|] eqn:PC; [|exact V1].
    destruct (get_c false k w1) as [w2 vy] eqn:G2. destruct (get_c_nd _ _ _ _ _ G2 V1) as (V2 & O2). destruct vy as [vy|]; [|exact V2]. destruct (positions _ i0 i1 istep) as [rows|] eqn:PR; [|exact V2]. cbv zeta. destruct (sub_coordinates _ _ _ _); [|exact V2]. destruct (sub_coordinates _ _ _ _); [|exact V2].
    destruct (positions_set _ _ _ _ _ NX PC) as [DC RC]. destruct (positions_set _ _ _ _ _ NY PR) as [DR RR].
    destruct (parse_xy _ _ _ _) as [[[xl kx] ?]|]; [|exact V2]. destruct (parse_xy _ _ _ _) as [[[yl ky] ?]|]; [|exact V2]. cbn [new_lim fst].
    apply nd_add; [exact V2|]. split; [cbn; lia|]. split; [cbn; lia|]. split.
    + intros x v Q. destruct x; cbn in Q; [destruct kx; [|discriminate Q]|destruct ky; [|discriminate Q]]; injection Q as <-; cbn [v_pos]; (apply picked_nodup; [assumption|intros p I|auto]); [apply RC in I|apply RR in I]; lia.
    + intros d Q. cbn in Q. injection Q as <-. cbn [snd]. clear - NC DC RC DR RR. induction rows as [|r rows IH]; [constructor|]. inversion DR; subst. cbn [map concat]. apply nodup_app.
      * apply picked_nodup; [exact DC|intros p I; apply RC in I; lia|]. now apply concat_nodup_row.
      * apply IH; [assumption|]. intros p I. apply RR. now right.
      * intros x I J. apply picked_in in I. apply in_concat in J. destruct J as (row & J1 & J2). apply in_map_iff in J1. destruct J1 as (q & <- & J1). apply picked_in in J2.
        pose proof (concat_nodup_rows _ NC _ _ _ I J2) as Q. apply Z2Nat.inj in Q; [congruence|apply RR; now left|apply RR; now right].
  - destruct (get_c x k w) as [w1 r] eqn:G. cbn [fst]. apply (get_c_nd _ _ _ _ _ G V).
  - destruct (nth_error (w_objs w) k) as [o|] eqn:Ek; [|exact V]. destruct (parse_limits l); [|exact V]. destruct (req2 _ _); [exact V|]. cbn [new_lim fst]. apply nd_set; [exact V|]. apply nd_with_lim. eauto.
  - destruct (nth_error (w_objs w) k) as [o|] eqn:Ek; [|exact V]. destruct (o_cells o); [|exact V]. destruct (new_val w _) as [b w1] eqn:N1. destruct (new_val_nd _ _ _ _ tt N1) as [O1 E1]. cbn [fst]. apply nd_set; [eapply nd_objs; eauto|]. apply nd_with_cells; [eauto|unfold size_x; lia|unfold size_y; lia|exact O1].
  - destruct (nth_error (w_objs w) k) as [o|]; [|exact V]. destruct (o_cells o) as [c0|]; [|exact V]. destruct (nth_error (nth r (snd c0) []) c); [|exact V]. cbn [fst]. eapply nd_objs; [|exact V]. reflexivity.
  - destruct (nth_error (w_objs w) k) as [o|]; [|exact V].
    assert (VS : nd (shift_axis false o dy (shift_axis true o dx w))) by (eapply nd_objs; [|exact V]; rewrite (proj1 (shift_axis_objs _ _ _ _)); apply shift_axis_objs).
    destruct dz as [d|], (o_cells o) as [c0|]; cbn [fst]; auto.
  - unfold step_resample. destruct (get_c true g w) as [w1 r1] eqn:G1. destruct (get_c_nd _ _ _ _ _ G1 V) as (V1 & _). destruct (get_c false g w1) as [w2 r2] eqn:G2. destruct (get_c_nd _ _ _ _ _ G2 V1) as (V2 & _).
    destruct (nth_error (w_objs w2) k) as [o|] eqn:Ek; [|exact V2]. destruct (nth_error (w_objs w2) g) as [og|] eqn:Eg; [|exact V2]. destruct (o_cells o); [|exact V2].
    destruct (new_val w2 rows) as [c w3] eqn:N3. destruct (new_val_nd _ _ _ _ tt N3) as [O3 E3].
    match goal with |- context [get_c true g ?z] => set (w4 := z) end.
    assert (V4 : nd w4) by (apply nd_set; [eapply nd_objs; eauto|]; apply nd_bind_lim, nd_bind_lim, nd_with_cells; [eauto|unfold size_x; lia|unfold size_y; lia|exact O3]).
    destruct (get_c true g w4) as [w5 r5] eqn:G5. destruct (get_c_nd _ _ _ _ _ G5 V4) as (V5 & O5). destruct r5 as [vx|]; [|exact V5].
    destruct (get_c false g w5) as [w6 r6] eqn:G6. destruct (get_c_nd _ _ _ _ _ G6 V5) as (V6 & O6). destruct r6 as [vy|]; [|exact V6].
    destruct (nth_error (w_objs w6) k) as [o6|] eqn:E6; [|exact V6]. cbn [fst]. apply nd_set; [exact V6|]. apply nd_with_cached; [apply nd_with_cached; [eauto|apply O5; reflexivity]|apply O6; reflexivity].
Qed.
Lemma run_nd h : nd (run h).
Proof. induction h as [|p h IH] using rev_ind; [intros [|j] o E; discriminate E|]. rewrite run_snoc. now apply step_nd. Qed.
