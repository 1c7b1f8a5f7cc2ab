(** Proofs about RayModel.v *)
From Verif Require Import Base BaseLemmas XReal HelpersModel SplitProofs BoxProofs RayModel HelpersSpec.
Open Scope R_scope.


(** ** Classification of slab states *)
Inductive cls (nz : Prop) : xr * xr -> (R -> Prop) -> Prop :=
| cBnd a b (P : R -> Prop) : a <= b -> (forall t, P t <-> a <= t <= b) -> cls nz (Fin a, Fin b) P
| cFull (P : R -> Prop) : ~ nz -> (forall t, P t) -> cls nz (NInf, PInf) P
| cEscP (P : R -> Prop) : ~ nz -> (forall t, ~ P t) -> cls nz (PInf, PInf) P
| cEscN (P : R -> Prop) : ~ nz -> (forall t, ~ P t) -> cls nz (NInf, NInf) P
| cMiss (P : R -> Prop) : (forall t, ~ P t) -> cls nz (NaN, NaN) P.

Inductive acls (nz : Prop) : xr * xr -> (R -> Prop) -> Prop :=
| aBnd a b (P : R -> Prop) : a <= b -> (forall t, P t <-> a <= t <= b) -> acls nz (Fin a, Fin b) P
| aFull (P : R -> Prop) : ~ nz -> (forall t, P t) -> acls nz (NInf, PInf) P
| aLo (P : R -> Prop) : ~ nz -> (forall t, P t) -> acls nz (NaN, PInf) P
| aHi (P : R -> Prop) : ~ nz -> (forall t, P t) -> acls nz (NInf, NaN) P
| aBoth (P : R -> Prop) : ~ nz -> (forall t, P t) -> acls nz (NaN, NaN) P
| aEscP (P : R -> Prop) : ~ nz -> (forall t, ~ P t) -> acls nz (PInf, PInf) P
| aEscN (P : R -> Prop) : ~ nz -> (forall t, ~ P t) -> acls nz (NInf, NInf) P.

Definition axis_in (o d lo hi t : R) : Prop := lo <= o + t * d <= hi.

Lemma axis_pos o d lo hi t : 0 < d -> axis_in o d lo hi t <-> (lo - o) * / d <= t <= (hi - o) * / d.
Proof.
  intros Hd. unfold axis_in. assert (0 < / d) by (apply Rinv_0_lt_compat; auto).
  assert (E : d * / d = 1) by (apply Rinv_r; lra). set (q := / d) in *.
  split; intros [H1 H2]; split.
  - replace t with ((o + t * d - o) * q) by (replace ((o + t*d - o) * q) with (t * (d * q)) by ring; rewrite E; ring).
    apply Rmult_le_compat_r; lra.
  - replace t with ((o + t * d - o) * q) by (replace ((o + t*d - o) * q) with (t * (d * q)) by ring; rewrite E; ring).
    apply Rmult_le_compat_r; lra.
  - apply (Rmult_le_compat_r d) in H1; [|lra].
    replace ((lo - o) * q * d) with ((lo - o) * (d * q)) in H1 by ring. rewrite E in H1. lra.
  - apply (Rmult_le_compat_r d) in H2; [|lra].
    replace ((hi - o) * q * d) with ((hi - o) * (d * q)) in H2 by ring. rewrite E in H2. lra.
Qed.
Lemma axis_neg o d lo hi t : d < 0 -> axis_in o d lo hi t <-> (hi - o) * / d <= t <= (lo - o) * / d.
Proof.
  intros Hd. pose proof (axis_pos (-o) (-d) (-hi) (-lo) t ltac:(lra)) as A.
  unfold axis_in in *.
  assert (E : / - d = - / d) by (field; lra).
  rewrite E in A.
  replace ((- hi - - o) * - / d) with ((hi - o) * / d) in A by ring.
  replace ((- lo - - o) * - / d) with ((lo - o) * / d) in A by ring.
  rewrite <- A. lra.
Qed.

Lemma axis_acls o d lo hi : lo <= hi -> acls (d <> 0) (axis_slab o d lo hi) (axis_in o d lo hi).
Proof.
  intros Hb. unfold axis_slab, xinv. destruct (Reqb_spec d 0) as [->|Hd].
  - simpl. unfold xmul.
    assert (HP : forall t, axis_in o 0 lo hi t <-> lo <= o <= hi) by (intros; unfold axis_in; lra).
    destruct (Rltb_spec 0 (lo - o)).
    + destruct (Rltb_spec 0 (hi - o)); [|lra]. apply aEscP; [lra|]. intros t Ht. apply HP in Ht. lra.
    + destruct (Rltb_spec (lo - o) 0).
      * destruct (Rltb_spec 0 (hi - o)); [apply aFull; [lra|]; intros; apply HP; lra|].
        destruct (Rltb_spec (hi - o) 0); [apply aEscN; [lra|]; intros t Ht; apply HP in Ht; lra|].
        apply aHi; [lra|]; intros; apply HP; lra.
      * destruct (Rltb_spec 0 (hi - o)); [apply aLo; [lra|]; intros; apply HP; lra|].
        destruct (Rltb_spec (hi - o) 0); [lra|]. apply aBoth; [lra|]; intros; apply HP; lra.
  - unfold xlt. destruct (Rltb_spec (/ d) 0) as [Hn|Hn].
    + assert (d < 0). { destruct (Rtotal_order d 0) as [|[|P]]; auto; [contradiction|]. apply Rinv_0_lt_compat in P. lra. }
      simpl. apply aBnd; [|intros; apply axis_neg; auto].
      apply Rmult_le_compat_neg_l with (r := / d) in Hb; [|lra]. lra.
    + assert (0 < d). { destruct (Rtotal_order d 0) as [P|[|]]; auto; [|contradiction]. apply Rinv_lt_0_compat in P. lra. }
      simpl. apply aBnd; [|intros; apply axis_pos; auto].
      apply Rmult_le_compat_r; lra.
Qed.

Lemma axis_cls o d lo hi : lo <= hi -> (d = 0 -> o <> lo /\ o <> hi) ->
  cls (d <> 0) (axis_slab o d lo hi) (axis_in o d lo hi).
Proof.
  intros Hb Hg. pose proof (axis_acls o d lo hi Hb) as A.
  destruct (Req_EM_T d 0) as [->|Hd].
  - destruct (Hg eq_refl) as [G1 G2]. clear A.
    unfold axis_slab, xinv. rewrite (proj2 (Reqb_true 0 0) eq_refl). simpl.
    assert (HP : forall t, axis_in o 0 lo hi t <-> lo <= o <= hi) by (intros; unfold axis_in; lra).
    destruct (Rltb_spec 0 (lo - o)).
    + destruct (Rltb_spec 0 (hi - o)); [|lra]. apply cEscP; [lra|]. intros t Ht. apply HP in Ht. lra.
    + destruct (Rltb_spec (lo - o) 0); [|lra].
      destruct (Rltb_spec 0 (hi - o)); [apply cFull; [lra|]; intros; apply HP; lra|].
      destruct (Rltb_spec (hi - o) 0); [apply cEscN; [lra|]; intros t Ht; apply HP in Ht; lra|]. lra.
  - revert A. generalize (axis_slab o d lo hi). intros s A. inversion A; try contradiction. apply cBnd; auto.
Qed.

Lemma cls_step nz1 nz2 s a P Q : cls nz1 s P -> acls nz2 a Q ->
  cls (nz1 \/ nz2) (slab_step s a) (fun t => P t /\ Q t).
Proof.
  intros Hs Ha.
  inversion Hs as [a1 b1 P0 Hab HP|P0 Hn HP|P0 Hn HP|P0 Hn HP|P0 HP]; subst;
  inversion Ha as [a2 b2 Q0 Hab2 HQ|Q0 Hn2 HQ|Q0 Hn2 HQ|Q0 Hn2 HQ|Q0 Hn2 HQ|Q0 Hn2 HQ|Q0 Hn2 HQ]; subst;
  unfold slab_step; cbn [xlt orb];
  try solve [ apply cMiss; intros t [Ht1 Ht2]; first [solve [apply HP in Ht1; tauto] | solve [apply HQ in Ht2; tauto]]
            | apply cFull; [tauto|]; intros; split; auto
            | apply cEscP; [tauto|]; intros t [Ht1 Ht2]; first [solve [apply HP in Ht1; auto] | solve [apply HQ in Ht2; auto]]
            | apply cEscN; [tauto|]; intros t [Ht1 Ht2]; first [solve [apply HP in Ht1; auto] | solve [apply HQ in Ht2; auto]]
            | apply cBnd; [assumption|]; intros t; rewrite ?HP, ?HQ; split; [tauto|split; auto] ].
  - destruct (Rltb_spec b2 a1); cbn [orb].
    { apply cMiss. intros t [Ht1 Ht2]. apply HP in Ht1. apply HQ in Ht2. lra. }
    destruct (Rltb_spec b1 a2).
    { apply cMiss. intros t [Ht1 Ht2]. apply HP in Ht1. apply HQ in Ht2. lra. }
    cbn [xlt]. destruct (Rltb_spec a1 a2), (Rltb_spec b2 b1); apply cBnd; try lra; intros t; rewrite HP, HQ; lra.
Qed.

(** The state before the final "behind the ray" step. *)
Lemma cls_final nz s P : cls nz s P -> nz ->
  let '(tmin, tmax) := s in
  let e := if xlt tmin (Fin 0) then NaN else tmin in
  let x := if xlt tmax (Fin 0) then NaN else tmax in
  (e = NaN /\ x = NaN /\ (forall t, 0 <= t -> ~ P t)) \/
  (exists b, e = NaN /\ x = Fin b /\ 0 <= b /\ (exists a, a < 0 /\ P a) /\ (forall t, 0 <= t -> (P t <-> t <= b))) \/
  (exists a b, e = Fin a /\ x = Fin b /\ 0 <= a <= b /\ (forall t, P t <-> a <= t <= b)).
Proof.
  intros H Hnz. inversion H as [a1 b1 P0 Hab HP|P0 Hn HP|P0 Hn HP|P0 Hn HP|P0 HP]; subst; try tauto.
  - cbn [xlt]. destruct (Rltb_spec a1 0).
    + destruct (Rltb_spec b1 0).
      * left; repeat split; auto. intros t Ht Hp. apply HP in Hp. lra.
      * right; left. exists b1. repeat split; auto; try lra.
        -- exists a1; split; auto. apply HP. lra.
        -- intros Hp. apply HP in Hp. lra.
        -- intros. apply HP. lra.
    + destruct (Rltb_spec b1 0); [lra|]. right; right. exists a1, b1. repeat split; auto; try lra; apply HP; auto.
  - left. simpl. repeat split; auto.
Qed.

Lemma cls_ext nz nz' s P P' : cls nz s P -> (nz' <-> nz) -> (forall t, P t <-> P' t) -> cls nz' s P'.
Proof.
  intros H Hn HP. inversion H; subst.
  - apply cBnd; auto. intros; rewrite <- HP; auto.
  - apply cFull; [tauto|]. intros; apply HP; auto.
  - apply cEscP; [tauto|]. intros t; rewrite <- HP; auto.
  - apply cEscN; [tauto|]. intros t; rewrite <- HP; auto.
  - apply cMiss. intros t; rewrite <- HP; auto.
Qed.

Theorem ray_box_cases n o d lo hi :
  (n = 2 \/ n = 3)%nat -> length d = n ->
  (forall i, (i < n)%nat -> nth i lo 0 <= nth i hi 0) ->
  (exists i, (i < n)%nat /\ nth i d 0 <> 0) ->
  (nth 0 d 0 = 0 -> nth 0 o 0 <> nth 0 lo 0 /\ nth 0 o 0 <> nth 0 hi 0) ->
  let P := ray_in_box n o d lo hi in
  let '(e, x) := ray_box o d lo hi in
  (e = NaN /\ x = NaN /\ (forall t, 0 <= t -> ~ P t)) \/
  (exists b, e = NaN /\ x = Fin b /\ 0 <= b /\ (exists a, a < 0 /\ P a) /\ (forall t, 0 <= t -> (P t <-> t <= b))) \/
  (exists a b, e = Fin a /\ x = Fin b /\ 0 <= a <= b /\ (forall t, P t <-> a <= t <= b)).
Proof.
  intros Hn Hld Hbox [k [Hk Hdk]] Hg P.
  unfold ray_box. rewrite Hld.
  assert (C0 : cls (nth 0 d 0 <> 0) (axis_slab (nth 0 o 0) (nth 0 d 0) (nth 0 lo 0) (nth 0 hi 0))
                 (axis_in (nth 0 o 0) (nth 0 d 0) (nth 0 lo 0) (nth 0 hi 0)))
    by (apply axis_cls; auto; apply Hbox; lia).
  assert (C1 := axis_acls (nth 1 o 0) (nth 1 d 0) (nth 1 lo 0) (nth 1 hi 0) ltac:(apply Hbox; lia)).
  pose proof (cls_step _ _ _ _ _ _ C0 C1) as C2.
  destruct Hn as [->| ->].
  - change (2 <? Z.of_nat 2)%Z with false. cbv beta iota.
    eapply cls_ext with (nz' := True) (P' := P) in C2.
    + pose proof (cls_final _ _ _ C2 I) as F. destruct (slab_step _ _). exact F.
    + split; [intros _|auto]. destruct k as [|[|]]; [left|right|lia]; auto.
    + intros t. unfold P, ray_in_box, axis_in. split.
      * intros [H0 H1] i Hi. destruct i as [|[|]]; [auto|auto|lia].
      * intros H; split; apply (H _); lia.
  - change (2 <? Z.of_nat 3)%Z with true. cbv beta iota.
    assert (C1' := axis_acls (nth 2 o 0) (nth 2 d 0) (nth 2 lo 0) (nth 2 hi 0) ltac:(apply Hbox; lia)).
    pose proof (cls_step _ _ _ _ _ _ C2 C1') as C3.
    eapply cls_ext with (nz' := True) (P' := P) in C3.
    + pose proof (cls_final _ _ _ C3 I) as F. destruct (slab_step (slab_step _ _) _). exact F.
    + split; [intros _|auto]. destruct k as [|[|[|]]]; [left; left|left; right|right|lia]; auto.
    + intros t. unfold P, ray_in_box, axis_in. split.
      * intros [[H0 H1] H2] i Hi. destruct i as [|[|[|]]]; [auto|auto|auto|lia].
      * intros H; repeat split; apply (H _); lia.
Qed.

(** Refutations: axis-parallel rays starting on the plane of an x face. *)
Lemma ray_box_entry_lost : 
  let o := [1; -5] in let d := [0; 1] in let lo := [1; -1] in let hi := [2; 2] in
  ~ in_closed_box 2 lo hi o /\ ray_in_box 2 o d lo hi 4 /\ fst (ray_box o d lo hi) = NaN.
Proof.
  cbv zeta. split; [|split].
  - intros H. specialize (H 1%nat ltac:(lia)). simpl in H. lra.
  - intros i Hi. destruct i as [|[|]]; simpl; try lra; lia.
  - unfold ray_box, axis_slab, xinv. cbn [nth].
    rewrite (proj2 (Reqb_true 0 0) eq_refl), (proj2 (Reqb_false 1 0) ltac:(lra)).
    cbn [xlt]. rewrite (proj2 (Rltb_false (/1) 0) ltac:(lra)).
    cbn [xmul]. rewrite (proj2 (Rltb_false 0 (1-1)) ltac:(lra)), (proj2 (Rltb_false (1-1) 0) ltac:(lra)),
      (proj2 (Rltb_true 0 (2-1)) ltac:(lra)).
    cbn. reflexivity.
Qed.
Lemma ray_box_exit_lost : 
  let o := [2; -5] in let d := [0; 1] in let lo := [1; -1] in let hi := [2; 2] in
  ray_in_box 2 o d lo hi 4 /\ snd (ray_box o d lo hi) = NaN.
Proof.
  cbv zeta. split.
  - intros i Hi. destruct i as [|[|]]; simpl; try lra; lia.
  - unfold ray_box, axis_slab, xinv. cbn [nth].
    rewrite (proj2 (Reqb_true 0 0) eq_refl), (proj2 (Reqb_false 1 0) ltac:(lra)).
    cbn [xlt]. rewrite (proj2 (Rltb_false (/1) 0) ltac:(lra)).
    cbn [xmul]. rewrite (proj2 (Rltb_false 0 (2-2)) ltac:(lra)), (proj2 (Rltb_false (2-2) 0) ltac:(lra)),
      (proj2 (Rltb_false 0 (1-2)) ltac:(lra)), (proj2 (Rltb_true (1-2) 0) ltac:(lra)).
    unfold slab_step. cbn [xlt xmul orb].
    rewrite orb_false_r || idtac.
    reflexivity.
Qed.
(** A ray that passes beside the box on the y axis although it starts on the
    plane of an x face is still reported as leaving the box. *)

(** ** Clipping *)
Lemma nth_vsub a b i : length a = length b -> nth i (vsub a b) 0 = nth i a 0 - nth i b 0.
Proof.
  unfold vsub. revert b i. induction a as [|x a IH]; destruct b as [|y b]; simpl; intros i H; try discriminate.
  - destruct i; lra.
  - destruct i; [reflexivity|]. apply IH. lia.
Qed.
Lemma nth_along o d t i : length o = length d -> nth i (along o d t) 0 = nth i o 0 + t * nth i d 0.
Proof.
  unfold along. revert d i. induction o as [|x a IH]; destruct d as [|y b]; simpl; intros i H; try discriminate.
  - destruct i; lra.
  - destruct i; [reflexivity|]. apply IH. lia.
Qed.
Lemma vsub_length a b : length a = length b -> length (vsub a b) = length a.
Proof. intros H. unfold vsub. rewrite map2_length, H. lia. Qed.


Lemma ray_in_box_along n o d lo hi t : length o = length d ->
  ray_in_box n o d lo hi t <-> in_closed_box n lo hi (along o d t).
Proof.
  intros H. unfold ray_in_box, in_closed_box. split; intros K i Hi; specialize (K i Hi); rewrite nth_along in *; auto.
Qed.

Lemma not_all_nth n (f g : nat -> R) : ~ (forall i, (i < n)%nat -> f i = g i) -> exists i, (i < n)%nat /\ f i <> g i.
Proof.
  induction n; intros H.
  - exfalso. apply H. lia.
  - destruct (Req_EM_T (f n) (g n)) as [E|E].
    + destruct IHn as [i [Hi He]].
      * intros K. apply H. intros i Hi. destruct (Nat.eq_dec i n) as [->|]; auto. apply K. lia.
      * exists i; split; auto.
    + exists n; split; auto.
Qed.

Lemma classic_box n lo hi p : in_closed_box n lo hi p \/ ~ in_closed_box n lo hi p.
Proof.
  unfold in_closed_box. induction n; [left; lia|].
  destruct IHn as [H|H].
  - destruct (Rle_dec (nth n lo 0) (nth n p 0)), (Rle_dec (nth n p 0) (nth n hi 0)).
    + left. intros i Hi. destruct (Nat.eq_dec i n) as [->|]; auto. apply H. lia.
    + right. intros K. specialize (K n ltac:(lia)). lra.
    + right. intros K. specialize (K n ltac:(lia)). lra.
    + right. intros K. specialize (K n ltac:(lia)). lra.
  - right. intros K. apply H. intros i Hi. apply K. lia.
Qed.

Lemma edge_box_enter n lo hi o h : (n = 2 \/ n = 3)%nat -> length o = n -> length h = n ->
  in_open_box n lo hi h -> ~ in_closed_box n lo hi o ->
  exists t, edge_box o (vsub h o) lo hi = Some t /\ enters_at n lo hi o h t.
Proof.
  intros Hn Ho Hh Hin Hout.
  assert (Hld : length (vsub h o) = n) by (rewrite vsub_length; congruence).
  pose proof (ray_box_cases n o (vsub h o) lo hi Hn Hld) as C.
  destruct (ray_box o (vsub h o) lo hi) as [e x] eqn:E.
  unfold edge_box. rewrite E.
  assert (P1 : ray_in_box n o (vsub h o) lo hi 1).
  { intros i Hi. rewrite nth_vsub by congruence. specialize (Hin i Hi). lra. }
  assert (P0 : ~ ray_in_box n o (vsub h o) lo hi 0).
  { intros K. apply Hout. intros i Hi. specialize (K i Hi). lra. }
  destruct C as [[_ [_ C]]|[[b [_ [_ [Hb [_ C]]]]]|[a [b [-> [-> [Hab C]]]]]]].
  - intros i Hi. specialize (Hin i Hi). lra.
  - assert (K : ~ (forall i, (i < n)%nat -> nth i h 0 = nth i o 0)).
    { intros K. apply Hout. intros i Hi. rewrite <- K by auto. specialize (Hin i Hi). lra. }
    apply not_all_nth in K. destruct K as [i [Hi Hne]]. exists i; split; auto. rewrite nth_vsub by congruence. lra.
  - rewrite nth_vsub by congruence. intros K. assert (nth 0 o 0 = nth 0 h 0) as -> by lra.
    specialize (Hin 0%nat ltac:(lia)). lra.
  - exfalso. apply (C 1); auto; lra.
  - exfalso. apply P0. apply C; lra.
  - assert (Ha0 : 0 < a). { destruct (Rle_lt_dec a 0); auto. exfalso. apply P0, C. lra. }
    assert (Hb1 : 1 <= b) by (apply C in P1; lra).
    (* a < 1 because h is strictly inside *)
    assert (Ha1 : a < 1).
    { apply C in P1. destruct (Rlt_le_dec a 1) as [|G]; auto. assert (a = 1) by lra. subst a. exfalso.
      (* some t slightly below 1 is inside *)
      assert (Heps : exists eps, 0 < eps /\ forall i, (i < n)%nat ->
                nth i lo 0 <= nth i o 0 + (1 - eps) * (nth i h 0 - nth i o 0) <= nth i hi 0).
      { assert (Q : forall m, (m <= n)%nat -> exists eps, 0 < eps /\ forall i, (i < m)%nat -> forall e, 0 <= e <= eps ->
                nth i lo 0 <= nth i o 0 + (1 - e) * (nth i h 0 - nth i o 0) <= nth i hi 0).
        { induction m; intros Hm.
          - exists 1. split; [lra|lia].
          - destruct IHm as [e1 [He1 H1]]; [lia|].
            assert (Hi := Hin m ltac:(lia)).
            set (D := Rabs (nth m h 0 - nth m o 0) + 1).
            assert (HD : 0 < D) by (unfold D; pose proof (Rabs_pos (nth m h 0 - nth m o 0)); lra).
            set (g := Rmin (nth m h 0 - nth m lo 0) (nth m hi 0 - nth m h 0)).
            assert (Hg : 0 < g) by (unfold g; apply Rmin_glb_lt; lra).
            exists (Rmin e1 (g / D)). split; [apply Rmin_glb_lt; auto; apply Rdiv_lt_0_compat; auto|].
            intros i Hi' ee He.
            assert (ee <= e1) by (eapply Rle_trans; [apply He|apply Rmin_l]).
            assert (eeD : ee <= g / D) by (eapply Rle_trans; [apply He|apply Rmin_r]).
            destruct (Nat.eq_dec i m) as [->|]; [|apply H1; [lia|lra]].
            assert (ee * D <= g).
            { apply (Rmult_le_compat_r D) in eeD; [|lra]. unfold Rdiv in eeD. rewrite Rmult_assoc, Rinv_l in eeD by lra. lra. }
            set (v := nth m h 0 - nth m o 0) in *.
            assert (Hv : Rabs (ee * v) <= g).
            { rewrite Rabs_mult, (Rabs_right ee) by lra.
              apply Rle_trans with (ee * D); auto. apply Rmult_le_compat_l; [lra|]. unfold D. lra. }
            apply Rabs_le_inv' in Hv.
            replace (nth m o 0 + (1 - ee) * v) with (nth m h 0 - ee * v) by (unfold v; ring).
            assert (g <= nth m h 0 - nth m lo 0) by (unfold g; apply Rmin_l).
            assert (g <= nth m hi 0 - nth m h 0) by (unfold g; apply Rmin_r). lra. }
        destruct (Q n ltac:(lia)) as [eps [He H]]. exists eps. split; auto. intros; apply H; auto. lra. }
      destruct Heps as [eps [He Hp]].
      assert (Pe : ray_in_box n o (vsub h o) lo hi (1 - eps)).
      { intros i Hi. rewrite nth_vsub by congruence. auto. }
      apply C in Pe. lra. }
    cbn [xnanmin xlt]. destruct (Rltb_spec b a); [lra|].
    rewrite (proj2 (Rltb_true 0 a) Ha0), (proj2 (Rltb_true a 1) Ha1). cbn [andb].
    exists a. split; auto. split; [lra|]. split.
    + apply ray_in_box_along; [congruence|]. apply C. lra.
    + intros s Hs K. apply ray_in_box_along in K; [|congruence]. apply C in K. lra.
Qed.

Lemma edge_box_leave n lo hi o e : (n = 2 \/ n = 3)%nat -> length o = n -> length e = n ->
  in_open_box n lo hi o -> ~ in_closed_box n lo hi e ->
  exists t, edge_box o (vsub e o) lo hi = Some t /\ leaves_at n lo hi o e t.
Proof.
  intros Hn Ho Hh Hin Hout.
  assert (Hld : length (vsub e o) = n) by (rewrite vsub_length; congruence).
  (* reverse the segment *)
  destruct (edge_box_enter n lo hi e o Hn Hh Ho Hin Hout) as [t0 [_ [Ht0 [Hin0 Hb0]]]].
  pose proof (ray_box_cases n o (vsub e o) lo hi Hn Hld) as C.
  destruct (ray_box o (vsub e o) lo hi) as [en x] eqn:E.
  unfold edge_box. rewrite E.
  assert (P1 : ~ ray_in_box n o (vsub e o) lo hi 1).
  { intros K. apply Hout. intros i Hi. specialize (K i Hi). rewrite nth_vsub in K by congruence. lra. }
  assert (P0 : ray_in_box n o (vsub e o) lo hi 0).
  { intros i Hi. specialize (Hin i Hi). lra. }
  assert (Pt : ray_in_box n o (vsub e o) lo hi (1 - t0)).
  { intros i Hi. specialize (Hin0 i Hi). rewrite nth_along, nth_vsub in Hin0 by (rewrite ?vsub_length; congruence).
    rewrite nth_vsub by congruence. lra. }
  assert (Hneg : exists a, a < 0 /\ ray_in_box n o (vsub e o) lo hi a).
  { (* extend backwards: reflect the outside end *)
    set (r := map2 (fun a b => 2 * a - b) o e).
    assert (Hr : length r = n) by (unfold r; rewrite map2_length; lia).
    assert (Hrn : forall i, nth i r 0 = 2 * nth i o 0 - nth i e 0).
    { intros i. unfold r. clear -Ho Hh. assert (H : length o = length e) by congruence. clear Ho Hh.
      revert e i H. induction o as [|x a IH]; destruct e as [|y b]; simpl; intros i H; try discriminate.
      - destruct i; lra.
      - destruct i; [reflexivity|]. apply IH. lia. }
    destruct (classic_box n lo hi r) as [Hrin|Hrout].
    - exists (-1). split; [lra|]. intros i Hi. rewrite nth_vsub by congruence. specialize (Hrin i Hi). rewrite Hrn in Hrin. lra.
    - destruct (edge_box_enter n lo hi r o Hn Hr Ho Hin Hrout) as [t1 [_ [Ht1 [Hin1 _]]]].
      exists (t1 - 1). split; [lra|]. intros i Hi. specialize (Hin1 i Hi).
      rewrite nth_along, nth_vsub, Hrn in Hin1 by (rewrite ?vsub_length; congruence).
      rewrite nth_vsub by congruence. lra. }
  destruct Hneg as [a0 [Ha0 Hpa0]].
  destruct C as [[_ [_ C]]|[[b [-> [-> [Hb [_ C]]]]]|[a [b [-> [-> [Hab C]]]]]]].
  - intros i Hi. specialize (Hin i Hi). lra.
  - assert (K : ~ (forall i, (i < n)%nat -> nth i e 0 = nth i o 0)).
    { intros K. apply Hout. intros i Hi. rewrite K by auto. specialize (Hin i Hi). lra. }
    apply not_all_nth in K. destruct K as [i [Hi Hne]]. exists i; split; auto. rewrite nth_vsub by congruence. lra.
  - intros _. specialize (Hin 0%nat ltac:(lia)). lra.
  - exfalso. apply (C 0); auto; lra.
  - assert (0 < b). { apply C in Pt; lra. }
    assert (b < 1). { destruct (Rlt_le_dec b 1); auto. exfalso. apply P1, C; lra. }
    cbn [xnanmin].
    rewrite (proj2 (Rltb_true 0 b) ltac:(lra)), (proj2 (Rltb_true b 1) ltac:(lra)). cbn [andb].
    exists b. split; auto. split; [lra|]. split.
    + apply ray_in_box_along; [congruence|]. apply C; lra.
    + intros s Hs K. apply ray_in_box_along in K; [|congruence]. apply C in K; lra.
  - apply C in Hpa0. lra.
Qed.
