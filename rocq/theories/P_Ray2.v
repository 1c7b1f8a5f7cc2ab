(** C09, rays that are parallel to the x faces of the box and start in the plane of one of them. *)
From Verif Require Import Base BaseLemmas XReal HelpersModel RayModel HelpersSpec RayProofs.
Open Scope R_scope.

(** The box is met at some t >= 0. *)
Definition meets (n : nat) (o d lo hi : list R) : Prop := exists t, 0 <= t /\ ray_in_box n o d lo hi t.

(** [b] is the last, [a] the first parameter in the box. *)
Definition last_in (P : R -> Prop) (b : R) : Prop := P b /\ forall t, P t -> t <= b.
Definition first_in (P : R -> Prop) (a : R) : Prop := P a /\ forall t, P t -> a <= t.

(** In the plane of the lower face: states (nan, tmax). *)
Inductive low (nz : Prop) : xr * xr -> (R -> Prop) -> Prop :=
| lowB b (P : R -> Prop) : (forall t, P t -> t <= b) -> ((exists t, P t) -> P b) -> low nz (NaN, Fin b) P
| lowI (P : R -> Prop) : ~ nz -> low nz (NaN, PInf) P
| lowN (P : R -> Prop) : (forall t, ~ P t) -> low nz (NaN, NInf) P
| lowM (P : R -> Prop) : (forall t, ~ P t) -> low nz (NaN, NaN) P.
Inductive high (nz : Prop) : xr * xr -> (R -> Prop) -> Prop :=
| highB b (P : R -> Prop) : (forall t, P t -> b <= t) -> ((exists t, P t) -> P b) -> high nz (Fin b, NaN) P
| highI (P : R -> Prop) : ~ nz -> high nz (NInf, NaN) P
| highN (P : R -> Prop) : (forall t, ~ P t) -> high nz (PInf, NaN) P
| highM (P : R -> Prop) : (forall t, ~ P t) -> high nz (NaN, NaN) P.

(** P is an interval (or everything) on the way. *)
Definition convex (P : R -> Prop) : Prop := forall a b c, P a -> P c -> a <= b <= c -> P b.

Lemma low_step nz1 nz2 s a (P Q : R -> Prop) : convex P -> low nz1 s P -> acls nz2 a Q -> (~ nz1 -> (forall t, P t) \/ (forall t, ~ P t)) ->
  low (nz1 \/ nz2) (slab_step s a) (fun t => P t /\ Q t).
Proof.
  intros Cv Hs Ha Full.
  inversion Hs as [b1 P0 Hb HP|P0 Hn|P0 HP|P0 HP]; subst;
  inversion Ha as [a2 b2 Q0 Hab2 HQ|Q0 Hn2 HQ|Q0 Hn2 HQ|Q0 Hn2 HQ|Q0 Hn2 HQ|Q0 Hn2 HQ|Q0 Hn2 HQ]; subst;
  unfold slab_step; cbn [xlt orb];
  try solve [ apply lowN; intros t [Ht1 Ht2]; try solve [exact (HP t Ht1)]; exact (HQ t Ht2)
            | apply lowM; intros t [Ht1 Ht2]; try solve [exact (HP t Ht1)]; exact (HQ t Ht2)
            | apply lowI; tauto
            | apply lowB; [intros t [Ht1 Ht2]; auto|intros [t [Ht1 Ht2]]; split; [apply HP; eauto|apply HQ]]
            | apply lowB; [intros t [Ht1 Ht2]; auto|intros [t [Ht1 Ht2]]; exfalso; exact (HQ t Ht2)] ].
  - destruct (Rltb_spec b1 a2).
    { cbn [xlt]. apply lowM. intros t [Ht1 Ht2]. apply Hb in Ht1. apply HQ in Ht2. lra. }
    cbn [xlt]. destruct (Rltb_spec b2 b1); apply lowB.
    + intros t [_ Ht2]. apply HQ in Ht2. lra.
    + intros [t [Ht1 Ht2]]. split; [|apply HQ; lra]. apply (Cv t b2 b1); [exact Ht1|apply HP; eauto|]. apply HQ in Ht2. lra.
    + intros t [Ht1 _]. auto.
    + intros [t [Ht1 Ht2]]. split; [apply HP; eauto|]. apply HQ. apply Hb in Ht1 as Hx. apply HQ in Ht2. lra.
  - apply lowB; [intros t [_ Ht2]; apply HQ in Ht2; lra|]. intros [t [Ht1 Ht2]]. split; [|apply HQ; lra].
    destruct (Full Hn) as [F|F]; [apply F|destruct (F _ Ht1)].
Qed.

Lemma high_step nz1 nz2 s a (P Q : R -> Prop) : convex P -> high nz1 s P -> acls nz2 a Q -> (~ nz1 -> (forall t, P t) \/ (forall t, ~ P t)) ->
  high (nz1 \/ nz2) (slab_step s a) (fun t => P t /\ Q t).
Proof.
  intros Cv Hs Ha Full.
  inversion Hs as [b1 P0 Hb HP|P0 Hn|P0 HP|P0 HP]; subst;
  inversion Ha as [a2 b2 Q0 Hab2 HQ|Q0 Hn2 HQ|Q0 Hn2 HQ|Q0 Hn2 HQ|Q0 Hn2 HQ|Q0 Hn2 HQ|Q0 Hn2 HQ]; subst;
  unfold slab_step; cbn [xlt orb];
  try solve [ apply highN; intros t [Ht1 Ht2]; try solve [exact (HP t Ht1)]; exact (HQ t Ht2)
            | apply highM; intros t [Ht1 Ht2]; try solve [exact (HP t Ht1)]; exact (HQ t Ht2)
            | apply highI; tauto
            | apply highB; [intros t [Ht1 Ht2]; auto|intros [t [Ht1 Ht2]]; split; [apply HP; eauto|apply HQ]]
            | apply highB; [intros t [Ht1 Ht2]; auto|intros [t [Ht1 Ht2]]; exfalso; exact (HQ t Ht2)] ].
  - destruct (Rltb_spec b2 b1); cbn [orb].
    { cbn [xlt]. apply highM. intros t [Ht1 Ht2]. apply Hb in Ht1. apply HQ in Ht2. lra. }
    cbn [xlt]. destruct (Rltb_spec b1 a2); apply highB.
    + intros t [_ Ht2]. apply HQ in Ht2. lra.
    + intros [t [Ht1 Ht2]]. split; [|apply HQ; lra]. apply (Cv b1 a2 t); [apply HP; eauto|exact Ht1|]. apply HQ in Ht2. lra.
    + intros t [Ht1 _]. auto.
    + intros [t [Ht1 Ht2]]. split; [apply HP; eauto|]. apply HQ. apply Hb in Ht1 as Hx. apply HQ in Ht2. lra.
  - apply highB; [intros t [_ Ht2]; apply HQ in Ht2; lra|]. intros [t [Ht1 Ht2]]. split; [|apply HQ; lra].
    destruct (Full Hn) as [F|F]; [apply F|destruct (F _ Ht1)].
Qed.

Lemma axis_convex o d lo hi : convex (axis_in o d lo hi).
Proof. intros a b c A C [B1 B2]. unfold axis_in in *. destruct (Rle_dec 0 d) as [D|D]; split; nra. Qed.
Lemma axis_zero o lo hi : (forall t, axis_in o 0 lo hi t) \/ (forall t, ~ axis_in o 0 lo hi t).
Proof. unfold axis_in. destruct (Rle_dec lo o), (Rle_dec o hi); [left; intros; lra|right; intros; lra..]. Qed.
Lemma slab_zero_low lo hi : lo < hi -> axis_slab lo 0 lo hi = (NaN, PInf).
Proof.
  intros L. unfold axis_slab, xinv. rewrite (proj2 (Reqb_true 0 0) eq_refl). cbn [xlt xmul].
  rewrite (proj2 (Rltb_false 0 (lo - lo)) ltac:(lra)), (proj2 (Rltb_false (lo - lo) 0) ltac:(lra)), (proj2 (Rltb_true 0 (hi - lo)) ltac:(lra)). reflexivity.
Qed.
Lemma slab_zero_high lo hi : lo < hi -> axis_slab hi 0 lo hi = (NInf, NaN).
Proof.
  intros L. unfold axis_slab, xinv. rewrite (proj2 (Reqb_true 0 0) eq_refl). cbn [xlt xmul].
  rewrite (proj2 (Rltb_false 0 (hi - hi)) ltac:(lra)), (proj2 (Rltb_false (hi - hi) 0) ltac:(lra)), (proj2 (Rltb_false 0 (lo - hi)) ltac:(lra)), (proj2 (Rltb_true (lo - hi) 0) ltac:(lra)). reflexivity.
Qed.
Lemma slab_zero_flat o : axis_slab o 0 o o = (NaN, NaN).
Proof.
  unfold axis_slab, xinv. rewrite (proj2 (Reqb_true 0 0) eq_refl). cbn [xlt xmul].
  rewrite (proj2 (Rltb_false 0 (o - o)) ltac:(lra)), (proj2 (Rltb_false (o - o) 0) ltac:(lra)). reflexivity.
Qed.
Lemma step_nan s : slab_step (NaN, NaN) s = (NaN, NaN).
Proof. destruct s as [[| | |] [| | |]]; reflexivity. Qed.
Definition axes (o d lo hi : list R) (i : nat) : R -> Prop := axis_in (nth i o 0) (nth i d 0) (nth i lo 0) (nth i hi 0).
Lemma axes_acls n o d lo hi i : (forall i, (i < n)%nat -> nth i lo 0 <= nth i hi 0) -> (i < n)%nat ->
  acls (nth i d 0 <> 0) (axis_slab (nth i o 0) (nth i d 0) (nth i lo 0) (nth i hi 0)) (axes o d lo hi i).
Proof. intros B I. apply axis_acls. auto. Qed.
Lemma ray_axes2 o d lo hi t : ray_in_box 2 o d lo hi t <-> axes o d lo hi 0 t /\ axes o d lo hi 1 t.
Proof. split; [intros H; split; apply H; lia|]. intros [A B] [|[|i]] I; [exact A|exact B|lia]. Qed.
Lemma ray_axes3 o d lo hi t : ray_in_box 3 o d lo hi t <-> (axes o d lo hi 0 t /\ axes o d lo hi 1 t) /\ axes o d lo hi 2 t.
Proof. split; [intros H; repeat split; apply H; lia|]. intros [[A B] C] [|[|[|i]]] I; [exact A|exact B|exact C|lia]. Qed.
Lemma low_ext nz nz' s P P' : low nz s P -> (nz' <-> nz) -> (forall t, P t <-> P' t) -> low nz' s P'.
Proof.
  intros H N E. inversion H as [b P0 Hb HP|P0 Hn|P0 HP|P0 HP]; subst.
  - apply lowB; [intros t X; apply Hb, E, X|]. intros [t X]. apply E, HP. exists t. apply E, X.
  - apply lowI. tauto.
  - apply lowN. intros t X. apply (HP t), E, X.
  - apply lowM. intros t X. apply (HP t), E, X.
Qed.
Lemma high_ext nz nz' s P P' : high nz s P -> (nz' <-> nz) -> (forall t, P t <-> P' t) -> high nz' s P'.
Proof.
  intros H N E. inversion H as [b P0 Hb HP|P0 Hn|P0 HP|P0 HP]; subst.
  - apply highB; [intros t X; apply Hb, E, X|]. intros [t X]. apply E, HP. exists t. apply E, X.
  - apply highI. tauto.
  - apply highN. intros t X. apply (HP t), E, X.
  - apply highM. intros t X. apply (HP t), E, X.
Qed.

Section Face.
Variables (n : nat) (o d lo hi : list R).
Hypothesis Dim : (n = 2 \/ n = 3)%nat.
Hypothesis Ld : length d = n.
Hypothesis Box : forall i, (i < n)%nat -> nth i lo 0 <= nth i hi 0.
Hypothesis Nz : exists i, (i < n)%nat /\ nth i d 0 <> 0.
Hypothesis Par : nth 0 d 0 = 0.
Notation P := (ray_in_box n o d lo hi).

Lemma parallel_decided : nth 1 d 0 = 0 -> (forall t, axes o d lo hi 0 t /\ axes o d lo hi 1 t) \/ (forall t, ~ (axes o d lo hi 0 t /\ axes o d lo hi 1 t)).
Proof.
  intros E1. unfold axes. rewrite Par, E1. destruct (axis_zero (nth 0 o 0) (nth 0 lo 0) (nth 0 hi 0)) as [A|A], (axis_zero (nth 1 o 0) (nth 1 lo 0) (nth 1 hi 0)) as [B|B];
    [left; intros t; split; auto|right; intros t [X Y]; firstorder..].
Qed.
Lemma convex2 : convex (fun t => axes o d lo hi 0 t /\ axes o d lo hi 1 t).
Proof. intros a b c [A0 A1] [C0 C1] B. split; [eapply axis_convex; [exact A0|exact C0|exact B]|eapply axis_convex; [exact A1|exact C1|exact B]]. Qed.
Lemma low_state : nth 0 o 0 = nth 0 lo 0 -> nth 0 lo 0 < nth 0 hi 0 ->
  exists s, low True s P /\ ray_box o d lo hi = (let '(tmin, tmax) := s in (if xlt tmin (Fin 0) then NaN else tmin, if xlt tmax (Fin 0) then NaN else tmax)).
Proof.
  intros O L. unfold ray_box. rewrite Ld.
  assert (S0 : low (nth 0 d 0 <> 0) (axis_slab (nth 0 o 0) (nth 0 d 0) (nth 0 lo 0) (nth 0 hi 0)) (axes o d lo hi 0)).
  { rewrite O, Par, slab_zero_low by exact L. apply lowI. intros X. exact (X eq_refl). }
  assert (F0 : ~ nth 0 d 0 <> 0 -> (forall t, axes o d lo hi 0 t) \/ (forall t, ~ axes o d lo hi 0 t)).
  { intros _. unfold axes. rewrite Par. apply axis_zero. }
  pose proof (low_step _ _ _ _ _ _ (axis_convex _ _ _ _) S0 (axes_acls n o d lo hi 1 Box ltac:(lia)) F0) as S1. destruct Nz as (k & Kn & Kd).
  destruct Dim as [E|E]; rewrite E.
  - change (2 <? Z.of_nat 2)%Z with false. cbv beta iota. eexists. split; [|reflexivity].
    eapply low_ext; [exact S1| |intros t; symmetry; apply ray_axes2]. split; [|tauto]. intros _. destruct k as [|[|k]]; [contradiction|tauto|lia].
  - change (2 <? Z.of_nat 3)%Z with true. cbv beta iota. eexists. split; [|reflexivity].
    assert (F1 : ~ (nth 0 d 0 <> 0 \/ nth 1 d 0 <> 0) -> (forall t, axes o d lo hi 0 t /\ axes o d lo hi 1 t) \/ (forall t, ~ (axes o d lo hi 0 t /\ axes o d lo hi 1 t))).
    { intros X. apply parallel_decided. destruct (Req_EM_T (nth 1 d 0) 0); [assumption|tauto]. }
    pose proof (low_step _ _ _ _ _ _ convex2 S1 (axes_acls n o d lo hi 2 Box ltac:(lia)) F1) as S2.
    eapply low_ext; [exact S2| |intros t; symmetry; apply ray_axes3]. split; [|tauto]. intros _. destruct k as [|[|[|k]]]; [contradiction|tauto|tauto|lia].
Qed.
Lemma high_state : nth 0 o 0 = nth 0 hi 0 -> nth 0 lo 0 < nth 0 hi 0 ->
  exists s, high True s P /\ ray_box o d lo hi = (let '(tmin, tmax) := s in (if xlt tmin (Fin 0) then NaN else tmin, if xlt tmax (Fin 0) then NaN else tmax)).
Proof.
  intros O L. unfold ray_box. rewrite Ld.
  assert (S0 : high (nth 0 d 0 <> 0) (axis_slab (nth 0 o 0) (nth 0 d 0) (nth 0 lo 0) (nth 0 hi 0)) (axes o d lo hi 0)).
  { rewrite O, Par, slab_zero_high by exact L. apply highI. intros X. exact (X eq_refl). }
  assert (F0 : ~ nth 0 d 0 <> 0 -> (forall t, axes o d lo hi 0 t) \/ (forall t, ~ axes o d lo hi 0 t)).
  { intros _. unfold axes. rewrite Par. apply axis_zero. }
  pose proof (high_step _ _ _ _ _ _ (axis_convex _ _ _ _) S0 (axes_acls n o d lo hi 1 Box ltac:(lia)) F0) as S1. destruct Nz as (k & Kn & Kd).
  destruct Dim as [E|E]; rewrite E.
  - change (2 <? Z.of_nat 2)%Z with false. cbv beta iota. eexists. split; [|reflexivity].
    eapply high_ext; [exact S1| |intros t; symmetry; apply ray_axes2]. split; [|tauto]. intros _. destruct k as [|[|k]]; [contradiction|tauto|lia].
  - change (2 <? Z.of_nat 3)%Z with true. cbv beta iota. eexists. split; [|reflexivity].
    assert (F1 : ~ (nth 0 d 0 <> 0 \/ nth 1 d 0 <> 0) -> (forall t, axes o d lo hi 0 t /\ axes o d lo hi 1 t) \/ (forall t, ~ (axes o d lo hi 0 t /\ axes o d lo hi 1 t))).
    { intros X. apply parallel_decided. destruct (Req_EM_T (nth 1 d 0) 0); [assumption|tauto]. }
    pose proof (high_step _ _ _ _ _ _ convex2 S1 (axes_acls n o d lo hi 2 Box ltac:(lia)) F1) as S2.
    eapply high_ext; [exact S2| |intros t; symmetry; apply ray_axes3]. split; [|tauto]. intros _. destruct k as [|[|[|k]]]; [contradiction|tauto|tauto|lia].
Qed.
End Face.

(** C09, lower face: the entry is never given; the exit is right whenever the box is met, and for two dimensions also when it is missed. *)
Theorem ray_box_lower_face n o d lo hi :
  (n = 2 \/ n = 3)%nat -> length d = n -> (forall i, (i < n)%nat -> nth i lo 0 <= nth i hi 0) -> (exists i, (i < n)%nat /\ nth i d 0 <> 0) ->
  nth 0 d 0 = 0 -> nth 0 o 0 = nth 0 lo 0 -> nth 0 lo 0 < nth 0 hi 0 ->
  let (entry, exit) := ray_box o d lo hi in
  entry = NaN /\
  (meets n o d lo hi -> exists b, exit = Fin b /\ 0 <= b /\ last_in (ray_in_box n o d lo hi) b) /\
  (n = 2%nat -> ~ meets n o d lo hi -> exit = NaN).
Proof.
  intros Dim Ld Box Nz Par O L. destruct (low_state n o d lo hi Dim Ld Box Nz Par O L) as (s & S & E). rewrite E. clear E Ld.
  inversion S as [b P0 Hb HP|P0 Hn|P0 HP|P0 HP]; subst; cbn [xlt].
  - destruct (Rltb_spec b 0) as [B|B].
    + repeat split; auto. intros (t & T & X). specialize (Hb t X). lra.
    + split; [reflexivity|]. split.
      * intros (t & T & X). exists b. split; [reflexivity|]. split; [lra|]. split; [apply HP; eauto|exact Hb].
      * intros N2 M. exfalso. apply M. exists b. split; [lra|]. apply HP.
        (* in two dimensions the y axis alone decides *)
        subst n. destruct Nz as ([|[|k]] & Kn & Kd); [contradiction| |lia].
        pose proof (axis_acls (nth 1 o 0) (nth 1 d 0) (nth 1 lo 0) (nth 1 hi 0) (Box 1%nat ltac:(lia))) as A. revert A. generalize (axis_slab (nth 1 o 0) (nth 1 d 0) (nth 1 lo 0) (nth 1 hi 0)). intros q A.
        inversion A as [a2 b2 Q Hab HQ|Q Hn HQ|Q Hn HQ|Q Hn HQ|Q Hn HQ|Q Hn HQ|Q Hn HQ]; subst; try contradiction.
        exists a2. apply ray_axes2. split; [unfold axes, axis_in; rewrite Par, O; lra|]. apply HQ. lra.
  - exfalso. exact (Hn I).
  - repeat split; auto. intros (t & T & X). destruct (HP t X).
  - repeat split; auto. intros (t & T & X). destruct (HP t X).
Qed.
Print Assumptions ray_box_lower_face.

(** C09, upper face: the exit is never given; the entry is right whenever the box is met, and for two dimensions also when it is missed. *)
Theorem ray_box_upper_face n o d lo hi :
  (n = 2 \/ n = 3)%nat -> length d = n -> (forall i, (i < n)%nat -> nth i lo 0 <= nth i hi 0) -> (exists i, (i < n)%nat /\ nth i d 0 <> 0) ->
  nth 0 d 0 = 0 -> nth 0 o 0 = nth 0 hi 0 -> nth 0 lo 0 < nth 0 hi 0 ->
  let (entry, exit) := ray_box o d lo hi in
  exit = NaN /\
  (meets n o d lo hi -> (exists a, entry = Fin a /\ 0 <= a /\ first_in (ray_in_box n o d lo hi) a) \/ (entry = NaN /\ exists a, a < 0 /\ first_in (ray_in_box n o d lo hi) a)) /\
  (n = 2%nat -> ~ meets n o d lo hi -> entry = NaN).
Proof.
  intros Dim Ld Box Nz Par O L. destruct (high_state n o d lo hi Dim Ld Box Nz Par O L) as (s & S & E). rewrite E. clear E Ld.
  inversion S as [b P0 Hb HP|P0 Hn|P0 HP|P0 HP]; subst; cbn [xlt].
  - split; [reflexivity|]. destruct (Rltb_spec b 0) as [B|B]; split.
    + intros (t & T & X). right. split; [reflexivity|]. exists b. split; [exact B|]. split; [apply HP; eauto|exact Hb].
    + reflexivity.
    + intros (t & T & X). left. exists b. split; [reflexivity|]. split; [lra|]. split; [apply HP; eauto|exact Hb].
    + intros N2 M. exfalso. apply M. exists b. split; [lra|]. apply HP.
      subst n. destruct Nz as ([|[|k]] & Kn & Kd); [contradiction| |lia].
      pose proof (axis_acls (nth 1 o 0) (nth 1 d 0) (nth 1 lo 0) (nth 1 hi 0) (Box 1%nat ltac:(lia))) as A. revert A. generalize (axis_slab (nth 1 o 0) (nth 1 d 0) (nth 1 lo 0) (nth 1 hi 0)). intros q A.
      inversion A as [a2 b2 Q Hab HQ|Q Hn HQ|Q Hn HQ|Q Hn HQ|Q Hn HQ|Q Hn HQ|Q Hn HQ]; subst; try contradiction.
      exists a2. apply ray_axes2. split; [unfold axes, axis_in; rewrite Par, O; lra|]. apply HQ. lra.
  - exfalso. exact (Hn I).
  - split; [reflexivity|]. split; [intros (t & T & X); destruct (HP t X)|]. intros N2 _.
    (* entry +inf does not arise in two dimensions *)
    exfalso. subst n. destruct Nz as ([|[|k]] & Kn & Kd); [contradiction| |lia].
    pose proof (axis_acls (nth 1 o 0) (nth 1 d 0) (nth 1 lo 0) (nth 1 hi 0) (Box 1%nat ltac:(lia))) as A. revert A. generalize (axis_slab (nth 1 o 0) (nth 1 d 0) (nth 1 lo 0) (nth 1 hi 0)). intros q A.
    inversion A as [a2 b2 Q Hab HQ|Q Hn HQ|Q Hn HQ|Q Hn HQ|Q Hn HQ|Q Hn HQ|Q Hn HQ]; subst; try contradiction.
    apply (HP a2). apply ray_axes2. split; [unfold axes, axis_in; rewrite Par, O; lra|]. apply HQ. lra.
  - split; [reflexivity|]. split; [intros (t & T & X); destruct (HP t X)|reflexivity].
Qed.
Print Assumptions ray_box_upper_face.

(** C09, a box without extent along x: neither is given. *)
Theorem ray_box_flat_face n o d lo hi : (n = 2 \/ n = 3)%nat -> length d = n -> nth 0 d 0 = 0 -> nth 0 o 0 = nth 0 lo 0 -> nth 0 lo 0 = nth 0 hi 0 ->
  ray_box o d lo hi = (NaN, NaN).
Proof.
  intros Dim Ld Par O L. unfold ray_box. rewrite Par, <- L, O, slab_zero_flat. cbv zeta. rewrite step_nan. destruct (_ <? _)%Z; [rewrite step_nan|]; reflexivity.
Qed.
Print Assumptions ray_box_flat_face.

(** Finding: in three dimensions such a ray may be reported to leave a box that it misses. *)
Theorem ray_box_face_miss_refuted : exists o d lo hi b, length d = 3%nat /\ ~ meets 3 o d lo hi /\ snd (ray_box o d lo hi) = Fin b.
Proof.
  exists [0; -2; 0], [0; 1; 1], [0; 0; 0], [1; 1; 1], 1. split; [reflexivity|]. split.
  - intros (t & T & M). pose proof (M 1%nat ltac:(lia)) as A. pose proof (M 2%nat ltac:(lia)) as B. cbn in A, B. lra.
  - unfold ray_box. cbn [nth length]. change (2 <? Z.of_nat 3)%Z with true. cbv beta iota. rewrite slab_zero_low by lra.
    assert (E : / 1 = 1) by lra.
    assert (S : forall o, axis_slab o 1 0 1 = (Fin ((0 - o) * 1), Fin ((1 - o) * 1))).
    { intros o. unfold axis_slab, xinv. rewrite (proj2 (Reqb_false 1 0) ltac:(lra)), E. cbn [xlt xmul]. rewrite (proj2 (Rltb_false 1 0) ltac:(lra)). reflexivity. }
    rewrite !S. unfold slab_step. cbn [xlt orb]. rewrite (proj2 (Rltb_false ((1 - -2) * 1) ((0 - 0) * 1)) ltac:(lra)). cbn [xlt]. rewrite (proj2 (Rltb_true ((1 - 0) * 1) ((1 - -2) * 1)) ltac:(lra)). cbn [xlt snd].
    rewrite (proj2 (Rltb_false ((1 - 0) * 1) 0) ltac:(lra)). f_equal. ring.
Qed.
Print Assumptions ray_box_face_miss_refuted.

Example ray_box_face_ex : meets 3 [0; -2; 1/2] [0; 1; 0] [0; 0; 0] [1; 1; 1].
Proof. exists 2. split; [lra|]. intros [|[|[|i]]] I; cbn; try lra; lia. Qed.
