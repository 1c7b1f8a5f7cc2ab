(** Proofs about bresenham_line. *)
From Verif Require Import Base BaseLemmas HelpersModel.
From Coq Require Import ZifyBool.
Open Scope Z_scope.

Definition orient (steep : bool) (x y : Z) : Z * Z := if steep then (y, x) else (x, y).

Lemma bres_loop_length n st x y dx ady s e :
  length (bres_loop n st x y dx ady s e) = n.
Proof. revert x y e; induction n; simpl; intros; auto. destruct (e - ady <? 0); simpl; rewrite IHn; auto. Qed.

(** The k-th loop point is determined by the error invariant. *)
Lemma bres_loop_nth n st x y dx ady s e i :
  (i < n)%nat -> 0 <= e < dx -> 0 <= ady <= dx ->
  exists k, nth_error (bres_loop n st x y dx ady s e) i
            = Some (orient st (x + Z.of_nat i) (y + s * k))
            /\ 0 <= e - Z.of_nat i * ady + k * dx < dx.
Proof.
  revert x y e i; induction n as [|n IH]; intros x y e i Hi He Hady; [lia|].
  destruct i as [|i].
  - exists 0. simpl. split; [|nia]. unfold orient. destruct st; do 2 f_equal; lia.
  - cbn [bres_loop nth_error].
    destruct (e - ady <? 0) eqn:E.
    + destruct (IH (x+1) (y+s) (e - ady + dx) i) as [k [H1 H2]]; [lia|lia|lia|].
      exists (k + 1). rewrite H1. split; [|nia].
      unfold orient. destruct st; do 2 f_equal; lia.
    + destruct (IH (x+1) y (e - ady) i) as [k [H1 H2]]; [lia|lia|lia|].
      exists k. rewrite H1. split; [|nia].
      unfold orient. destruct st; do 2 f_equal; lia.
Qed.

(** Normalised problem: x1 <= x2, |dy| <= dx. *)
Definition norm_line (st : bool) (x1 y1 x2 y2 : Z) : list (Z * Z) :=
  bres_loop (Z.to_nat (x2 + 1 - x1)) st x1 y1 (x2 - x1) (Z.abs (y2 - y1))
    (if y1 <? y2 then 1 else -1) ((x2 - x1) / 2).

Lemma norm_line_length st x1 y1 x2 y2 : x1 <= x2 ->
  Z.of_nat (length (norm_line st x1 y1 x2 y2)) = x2 - x1 + 1.
Proof. intros. unfold norm_line. rewrite bres_loop_length. lia. Qed.

Lemma norm_line_nth st x1 y1 x2 y2 i :
  x1 <= x2 -> Z.abs (y2 - y1) <= x2 - x1 -> 0 <= Z.of_nat i <= x2 - x1 ->
  exists d, nth_error (norm_line st x1 y1 x2 y2) i = Some (orient st (x1 + Z.of_nat i) (y1 + d))
    /\ 2 * Z.abs (d * (x2 - x1) - Z.of_nat i * (y2 - y1)) <= x2 - x1
    /\ (Z.of_nat i = 0 -> d = 0) /\ (Z.of_nat i = x2 - x1 -> d = y2 - y1).
Proof.
  intros Hx Hy Hi.
  destruct (Z.eq_dec x1 x2) as [->|Hne].
  - exists 0. assert (i = 0%nat) by lia. subst i.
    unfold norm_line. replace (x2 + 1 - x2) with 1 by lia. change (Z.to_nat 1) with 1%nat.
    replace (x2 - x2) with 0 by lia. cbn [bres_loop nth_error].
    split; [unfold orient; destruct st; do 2 f_equal; simpl; lia|]. change (Z.of_nat 0) with 0 in *. repeat split; intros; try lia.
  - unfold norm_line.
    pose proof (Z.div_mod (x2 - x1) 2 ltac:(lia)) as Hd.
    pose proof (Z.mod_pos_bound (x2 - x1) 2 ltac:(lia)) as Hm.
    set (h := (x2 - x1) / 2) in *.
    destruct (bres_loop_nth (Z.to_nat (x2 + 1 - x1)) st x1 y1 (x2 - x1) (Z.abs (y2 - y1))
                (if y1 <? y2 then 1 else -1) h i) as [k [H1 H2]]; [lia|lia|lia|].
    exists ((if y1 <? y2 then 1 else -1) * k). split; [exact H1|].
    assert (Hbound : 2 * Z.abs (k * (x2 - x1) - Z.of_nat i * Z.abs (y2 - y1)) <= x2 - x1) by lia.
    assert (Hs : (if y1 <? y2 then 1 else -1) * Z.abs (y2 - y1) = y2 - y1).
    { destruct (y1 <? y2) eqn:E; lia. }
    split; [|split].
    + destruct (y1 <? y2) eqn:E.
      * replace (Z.abs (y2 - y1)) with (y2 - y1) in Hbound by lia.
        replace (1 * k) with k by lia. exact Hbound.
      * replace (Z.abs (y2 - y1)) with (- (y2 - y1)) in Hbound by lia.
        replace (-1 * k * (x2 - x1) - Z.of_nat i * (y2 - y1))
          with (- (k * (x2 - x1) - Z.of_nat i * - (y2 - y1))) by ring.
        rewrite Z.abs_opp. exact Hbound.
    + intros Hi0. assert (k = 0); [|subst k; lia].
      rewrite Hi0 in H2. nia.
    + intros Hie. assert (k = Z.abs (y2 - y1)); [|subst k; exact Hs].
      rewrite Hie in H2. nia.
Qed.

(** [bresenham_line] as orientation + optional reversal of the normal form. *)
Lemma bresenham_line_norm x1 y1 x2 y2 :
  exists st sw a1 b1 a2 b2,
    st = (Z.abs (x2 - x1) <? Z.abs (y2 - y1)) /\
    a1 <= a2 /\ Z.abs (b2 - b1) <= a2 - a1 /\
    bresenham_line (x1, y1) (x2, y2)
      = (if sw : bool then rev (norm_line st a1 b1 a2 b2) else norm_line st a1 b1 a2 b2) /\
    (if sw then orient st a2 b2 = (x1, y1) /\ orient st a1 b1 = (x2, y2) /\ a1 < a2
     else orient st a1 b1 = (x1, y1) /\ orient st a2 b2 = (x2, y2)).
Proof.
  unfold bresenham_line.
  destruct (Z.abs (x2 - x1) <? Z.abs (y2 - y1)) eqn:Est.
  - exists true. destruct (y2 <? y1) eqn:Esw.
    + exists true, y2, x2, y1, x1. unfold norm_line, orient. repeat split; try lia; reflexivity.
    + exists false, y1, x1, y2, x2. unfold norm_line, orient. repeat split; try lia; reflexivity.
  - exists false. destruct (x2 <? x1) eqn:Esw.
    + exists true, x2, y2, x1, y1. unfold norm_line, orient. repeat split; try lia; reflexivity.
    + exists false, x1, y1, x2, y2. unfold norm_line, orient. repeat split; try lia; reflexivity.
Qed.

Lemma nth_error_rev {A} (l : list A) i : (i < length l)%nat ->
  nth_error (rev l) i = nth_error l (length l - 1 - i).
Proof.
  intros H. destruct l as [|a l0] eqn:El; [simpl in H; lia|]. rewrite <- El in *.
  rewrite (nth_error_nth' (rev l) a) by (rewrite rev_length; lia).
  rewrite (nth_error_nth' l a) by lia.
  f_equal. rewrite rev_nth by lia. f_equal. lia.
Qed.

(** Main characterisation in original coordinates. *)
Lemma bresenham_line_nth x1 y1 x2 y2 :
  let pts := bresenham_line (x1, y1) (x2, y2) in
  let M := Z.max (Z.abs (x2 - x1)) (Z.abs (y2 - y1)) in
  Z.of_nat (length pts) = M + 1 /\
  (forall i, Z.of_nat i <= M -> exists px py,
      nth_error pts i = Some (px, py) /\
      (if Z.abs (x2 - x1) <? Z.abs (y2 - y1)
       then py = y1 + Z.of_nat i * Z.sgn (y2 - y1)
       else px = x1 + Z.of_nat i * Z.sgn (x2 - x1)) /\
      2 * Z.abs ((py - y1) * (x2 - x1) - (px - x1) * (y2 - y1)) <= M /\
      (Z.of_nat i = 0 -> (px, py) = (x1, y1)) /\ (Z.of_nat i = M -> (px, py) = (x2, y2))).
Proof.
  intros pts M. subst pts.
  destruct (bresenham_line_norm x1 y1 x2 y2) as (st & sw & a1 & b1 & a2 & b2 & Hst & Ha & Hb & -> & Hsw).
  assert (HM : M = a2 - a1).
  { subst M. destruct sw, st; unfold orient in Hsw;
      [destruct Hsw as (E1 & E2 & E3) | destruct Hsw as (E1 & E2 & E3)
      | destruct Hsw as (E1 & E2) | destruct Hsw as (E1 & E2)];
      injection E1; injection E2; intros; subst; lia. }
  assert (Hl : Z.of_nat (length (norm_line st a1 b1 a2 b2)) = M + 1)
    by (rewrite norm_line_length; lia).
  split; [destruct sw; rewrite ?rev_length; exact Hl|].
  intros i Hi. rewrite <- Hst.
  destruct sw.
  - rewrite nth_error_rev by lia.
    set (j := (length (norm_line st a1 b1 a2 b2) - 1 - i)%nat).
    assert (Hj : Z.of_nat j = M - Z.of_nat i) by (subst j; lia).
    destruct (norm_line_nth st a1 b1 a2 b2 j Ha Hb ltac:(lia)) as (d & H1 & H2 & H3 & H4).
    rewrite H1. rewrite Hj in *. destruct Hsw as (E1 & E2 & E3).
    unfold orient in *. destruct st; injection E1 as Ea Eb; injection E2 as Ec Ed; subst a1 a2 b1 b2.
    + exists (x2 + d), (y2 + (M - Z.of_nat i)). split; [reflexivity|]. split; [|split; [|split]].
      * rewrite Z.sgn_neg by lia. lia.
      * rewrite <- HM in H2. replace ((y2 + (M - Z.of_nat i) - y1) * (x2 - x1) - (x2 + d - x1) * (y2 - y1))
          with (d * (y1 - y2) - (M - Z.of_nat i) * (x1 - x2)) by (rewrite HM; ring).
        rewrite HM at 2. replace (y1 - y2) with (y1 - y2) by lia. rewrite <- HM. rewrite HM in H2 |- *. lia.
      * intros Hi0. rewrite H4 by lia. f_equal; lia.
      * intros HiM. rewrite H3 by lia. f_equal; lia.
    + exists (x2 + (M - Z.of_nat i)), (y2 + d). split; [reflexivity|]. split; [|split; [|split]].
      * rewrite Z.sgn_neg by lia. lia.
      * replace ((y2 + d - y1) * (x2 - x1) - (x2 + (M - Z.of_nat i) - x1) * (y2 - y1))
          with (- (d * (x1 - x2) - (M - Z.of_nat i) * (y1 - y2))) by (rewrite HM; ring).
        rewrite Z.abs_opp. rewrite HM in *. lia.
      * intros Hi0. rewrite H4 by lia. f_equal; lia.
      * intros HiM. rewrite H3 by lia. f_equal; lia.
  - destruct (norm_line_nth st a1 b1 a2 b2 i Ha Hb ltac:(lia)) as (d & H1 & H2 & H3 & H4).
    rewrite H1. destruct Hsw as (E1 & E2).
    unfold orient in *. destruct st; injection E1 as Ea Eb; injection E2 as Ec Ed; subst a1 a2 b1 b2.
    + exists (x1 + d), (y1 + Z.of_nat i). split; [reflexivity|]. split; [|split; [|split]].
      * rewrite Z.sgn_pos by lia. lia.
      * replace ((y1 + Z.of_nat i - y1) * (x2 - x1) - (x1 + d - x1) * (y2 - y1))
          with (- (d * (y2 - y1) - Z.of_nat i * (x2 - x1))) by ring.
        rewrite Z.abs_opp. lia.
      * intros Hi0. rewrite H3 by lia. f_equal; lia.
      * intros HiM. rewrite H4 by lia. f_equal; lia.
    + exists (x1 + Z.of_nat i), (y1 + d). split; [reflexivity|]. split; [|split; [|split]].
      * destruct (Z.eq_dec x1 x2); [subst; lia|]. rewrite Z.sgn_pos by lia. lia.
      * replace ((y1 + d - y1) * (x2 - x1) - (x1 + Z.of_nat i - x1) * (y2 - y1))
          with (d * (x2 - x1) - Z.of_nat i * (y2 - y1)) by ring. lia.
      * intros Hi0. rewrite H3 by lia. f_equal; lia.
      * intros HiM. rewrite H4 by lia. f_equal; lia.
Qed.

Lemma abs_bound k a b : 0 <= k -> 0 <= b < a -> k * a <= a + b -> k <= 1.
Proof. intros. nia. Qed.
Lemma abs_bound' k a : 0 < a -> k * a = a -> k = 1.
Proof. intros. nia. Qed.

Lemma bresenham_line_spec x1 y1 x2 y2 :
  let pts := bresenham_line (x1, y1) (x2, y2) in
  let dx := x2 - x1 in let dy := y2 - y1 in
  let M := Z.max (Z.abs dx) (Z.abs dy) in
  Z.of_nat (length pts) = M + 1
  /\ nth_error pts 0 = Some (x1, y1)
  /\ nth_error pts (length pts - 1) = Some (x2, y2)
  /\ NoDup pts
  /\ (forall i px py, nth_error pts i = Some (px, py) ->
        (if Z.abs dx <? Z.abs dy then py = y1 + Z.of_nat i * Z.sgn dy
         else px = x1 + Z.of_nat i * Z.sgn dx)
        /\ 2 * Z.abs ((py - y1) * dx - (px - x1) * dy) <= M)
  /\ (forall i px py qx qy,
        nth_error pts i = Some (px, py) -> nth_error pts (S i) = Some (qx, qy) ->
        Z.max (Z.abs (qx - px)) (Z.abs (qy - py)) = 1).
Proof.
  intros pts dx dy M.
  destruct (bresenham_line_nth x1 y1 x2 y2) as [Hl Hn]. fold pts dx dy in Hl, Hn. fold M in Hl, Hn.
  assert (HM0 : 0 <= M) by lia.
  split; [exact Hl|].
  assert (Hget : forall i px py, nth_error pts i = Some (px, py) ->
     Z.of_nat i <= M /\ (if Z.abs dx <? Z.abs dy then py = y1 + Z.of_nat i * Z.sgn dy
         else px = x1 + Z.of_nat i * Z.sgn dx)
        /\ 2 * Z.abs ((py - y1) * dx - (px - x1) * dy) <= M).
  { intros i px py Hi. assert (i < length pts)%nat by (apply nth_error_Some; congruence).
    destruct (Hn i ltac:(lia)) as (qx & qy & E & A & B & _). rewrite Hi in E. injection E as <- <-.
    split; [lia|]. split; assumption. }
  split; [destruct (Hn 0%nat ltac:(lia)) as (qx & qy & E & _ & _ & A & _); rewrite E, A; auto; lia|].
  split; [destruct (Hn (length pts - 1)%nat ltac:(lia)) as (qx & qy & E & _ & _ & _ & A);
          rewrite E, A; auto; lia|].
  split.
  { apply NoDup_nth_error. intros i j Hi Hij.
    destruct (nth_error pts i) as [[px py]|] eqn:Ei; [|apply nth_error_None in Ei; lia].
    symmetry in Hij.
    destruct (Hget _ _ _ Ei) as (Hi1 & Hi2 & _). destruct (Hget _ _ _ Hij) as (Hj1 & Hj2 & _).
    destruct (Z.abs dx <? Z.abs dy) eqn:E.
    - assert (Z.sgn dy = 1 \/ Z.sgn dy = -1) as [Hs|Hs] by lia; rewrite Hs in *; lia.
    - destruct (Z.eq_dec dx 0) as [Hz|Hz].
      + assert (M = 0) by lia. lia.
      + assert (Z.sgn dx = 1 \/ Z.sgn dx = -1) as [Hs|Hs] by lia; rewrite Hs in *; lia. }
  split; [intros i px py Hi; apply Hget in Hi; tauto|].
  intros i px py qx qy Hp Hq.
  destruct (Hget _ _ _ Hp) as (Hi1 & Hi2 & Hi3). destruct (Hget _ _ _ Hq) as (Hj1 & Hj2 & Hj3).
  destruct (Z.abs dx <? Z.abs dy) eqn:E.
  - assert (Hqp : qy - py = Z.sgn dy) by lia.
    assert (Habs : Z.abs (qy - py) = 1) by lia.
    assert (Z.abs (qx - px) <= 1); [|lia].
    assert (M = Z.abs dy) by lia.
    assert (Hc : Z.abs ((qy - py) * dx - (qx - px) * dy) <= Z.abs dy).
    { replace ((qy - py) * dx - (qx - px) * dy) with
        (((qy - y1) * dx - (qx - x1) * dy) - ((py - y1) * dx - (px - x1) * dy)) by ring. lia. }
    assert (Hk : Z.abs ((qx - px) * dy) <= Z.abs dy + Z.abs dx).
    { rewrite Hqp in Hc. assert (Z.abs (Z.sgn dy * dx) <= Z.abs dx) by (rewrite Z.abs_mul; nia). lia. }
    rewrite Z.abs_mul in Hk. apply (abs_bound _ (Z.abs dy) (Z.abs dx)); lia.
  - destruct (Z.eq_dec dx 0) as [Hz|Hz]; [assert (M = 0) by lia; lia|].
    assert (Hqp : qx - px = Z.sgn dx) by lia.
    assert (Habs : Z.abs (qx - px) = 1) by lia.
    assert (Z.abs (qy - py) <= 1); [|lia].
    assert (HMx : M = Z.abs dx) by lia.
    assert (Hc : Z.abs ((qy - py) * dx - (qx - px) * dy) <= Z.abs dx).
    { replace ((qy - py) * dx - (qx - px) * dy) with
        (((qy - y1) * dx - (qx - x1) * dy) - ((py - y1) * dx - (px - x1) * dy)) by ring. lia. }
    destruct (Z.eq_dec (Z.abs dx) (Z.abs dy)) as [He|He].
    + (* slope exactly +-1: each point is exactly on the line *)
      assert (Hcol : forall i px py, nth_error pts i = Some (px, py) -> (py - y1) * dx = (px - x1) * dy).
      { intros i' px' py' Hp'. destruct (Hget _ _ _ Hp') as (_ & _ & H3).
        assert (dy = dx \/ dy = - dx) as [->| ->] by lia; rewrite HMx in H3.
        - replace ((py' - y1) * dx - (px' - x1) * dx) with ((py' - y1 - (px' - x1)) * dx) in H3 by ring.
          rewrite Z.abs_mul in H3. assert (Z.abs (py' - y1 - (px' - x1)) = 0) by nia.
          assert (py' - y1 = px' - x1) by lia. congruence.
        - replace ((py' - y1) * dx - (px' - x1) * - dx) with ((py' - y1 + (px' - x1)) * dx) in H3 by ring.
          rewrite Z.abs_mul in H3. assert (Z.abs (py' - y1 + (px' - x1)) = 0) by nia.
          assert (py' - y1 = - (px' - x1)) by lia. rewrite H0. ring. }
      pose proof (Hcol _ _ _ Hp); pose proof (Hcol _ _ _ Hq).
      assert (Hx : (qy - py) * dx = (qx - px) * dy) by lia.
      assert (Z.abs (qy - py) * Z.abs dx = Z.abs dy) by (rewrite <- Z.abs_mul, Hx, Z.abs_mul; lia).
      assert (Z.abs (qy - py) = 1) by (apply (abs_bound' _ (Z.abs dx)); lia). lia.
    + assert (Hk : Z.abs ((qy - py) * dx) <= Z.abs dx + Z.abs dy).
      { rewrite Hqp in Hc. assert (Z.abs (Z.sgn dx * dy) <= Z.abs dy) by (rewrite Z.abs_mul; nia). lia. }
      rewrite Z.abs_mul in Hk. apply (abs_bound _ (Z.abs dx) (Z.abs dy)); lia.
Qed.

Lemma norm_line_singleton st x1 y1 y2 : exists p, norm_line st x1 y1 x1 y2 = [p].
Proof.
  unfold norm_line. replace (x1 + 1 - x1) with 1 by lia. change (Z.to_nat 1) with 1%nat. cbn [bres_loop].
  destruct ((x1 - x1) / 2 - Z.abs (y2 - y1) <? 0); eauto.
Qed.

Lemma bresenham_line_reverse a b : bresenham_line b a = rev (bresenham_line a b).
Proof.
  destruct a as [x1 y1], b as [x2 y2]. unfold bresenham_line.
  replace (Z.abs (x1 - x2)) with (Z.abs (x2 - x1)) by lia.
  replace (Z.abs (y1 - y2)) with (Z.abs (y2 - y1)) by lia.
  destruct (Z.abs (x2 - x1) <? Z.abs (y2 - y1)) eqn:Est.
  - destruct (y1 <? y2) eqn:E1, (y2 <? y1) eqn:E2; try lia; rewrite ?rev_involutive; auto.
  - destruct (x1 <? x2) eqn:E1, (x2 <? x1) eqn:E2; try lia; rewrite ?rev_involutive; auto.
    assert (x1 = x2) by lia. subst x2. assert (y1 = y2) by lia. subst y2.
    replace (x1 + 1 - x1) with 1 by lia. change (Z.to_nat 1) with 1%nat. cbn [bres_loop].
    destruct ((x1 - x1) / 2 - Z.abs (y1 - y1) <? 0); reflexivity.
Qed.
