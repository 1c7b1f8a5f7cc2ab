(** Proofs about Raster.horizon (HorizonModel.v). *)
From Coq Require Import Lia Lra.
From Verif Require Import Base BaseLemmas XReal HelpersModel HelpersSpec BresenhamProofs SplitProofs RayModel RayProofs GridModel GridSpec GridProofs GetitemModel HorizonModel.
Open Scope R_scope.

(** ** The line stays in the rectangle of its ends *)
Lemma minor_between a b (M D y i : Z) : (0 < M)%Z -> (0 <= i <= M)%Z -> (Z.abs D <= M)%Z -> (2 * Z.abs (y * M - i * D) <= M)%Z ->
  (a <= 0 -> a <= D -> 0 <= b -> D <= b -> a <= y <= b)%Z.
Proof. intros HM Hi HD H Ha Ha' Hb Hb'. assert ((0 <= D)%Z \/ (D < 0)%Z) as [P|P] by lia; split; nia. Qed.

Lemma bresenham_box x1 y1 x2 y2 p : In p (bresenham_line (x1, y1) (x2, y2)) ->
  (Z.min x1 x2 <= fst p <= Z.max x1 x2)%Z /\ (Z.min y1 y2 <= snd p <= Z.max y1 y2)%Z.
Proof.
  intros Hin. apply In_nth_error in Hin. destruct Hin as [i Hi]. destruct p as [px py].
  pose proof (bresenham_line_spec x1 y1 x2 y2) as S. cbv zeta in S. destruct S as (L & F & _ & _ & S & _).
  assert (Hl : (i < length (bresenham_line (x1, y1) (x2, y2)))%nat) by (apply nth_error_Some; congruence).
  destruct (Z.eq_dec (Z.max (Z.abs (x2 - x1)) (Z.abs (y2 - y1))) 0) as [E|E].
  { assert (i = 0%nat) by lia. subst i. rewrite F in Hi. inversion Hi; subst. cbn. lia. }
  destruct (S _ _ _ Hi) as [Sa Sb]. cbn [fst snd].
  destruct (Z.ltb_spec (Z.abs (x2 - x1)) (Z.abs (y2 - y1))) as [C|C].
  - assert (Hd : (Z.min 0 (x2 - x1) <= px - x1 <= Z.max 0 (x2 - x1))%Z).
    { apply (minor_between _ _ (Z.abs (y2 - y1)) (x2 - x1) (px - x1) (Z.of_nat i)); try lia.
    }
    split; [lia|]. assert (Z.of_nat i <= Z.abs (y2 - y1))%Z by lia. subst py. clear - H. destruct (Z.sgn_spec (y2 - y1)) as [[? ->]|[[? ->]|[? ->]]]; lia.
  - assert (Hd : (Z.min 0 (y2 - y1) <= py - y1 <= Z.max 0 (y2 - y1))%Z).
    { apply (minor_between _ _ (Z.abs (x2 - x1)) (y2 - y1) (py - y1) (Z.of_nat i)); try lia.
    }
    split; [|lia]. assert (Z.of_nat i <= Z.abs (x2 - x1))%Z by lia. subst px. clear - H. destruct (Z.sgn_spec (x2 - x1)) as [[? ->]|[[? ->]|[? ->]]]; lia.
Qed.

(** ** nanargmax *)
Definition is_argmax (l : list (option R)) (i : nat) : Prop := exists x, nth_error l i = Some (Some x)
  /\ (forall j y, nth_error l j = Some (Some y) -> y <= x) /\ (forall j y, (j < i)%nat -> nth_error l j = Some (Some y) -> y < x).
Lemma nanargmax_some l : forall pre best, (match best with None => forall j y, nth_error pre j <> Some (Some y) | Some (i, x) => nth_error pre i = Some (Some x)
    /\ (forall j y, nth_error pre j = Some (Some y) -> y <= x) /\ (forall j y, (j < i)%nat -> nth_error pre j = Some (Some y) -> y < x) end) ->
  match nanargmax_ (length pre) best l with None => forall j y, nth_error (pre ++ l) j <> Some (Some y) | Some (i, x) => nth_error (pre ++ l) i = Some (Some x)
    /\ (forall j y, nth_error (pre ++ l) j = Some (Some y) -> y <= x) /\ (forall j y, (j < i)%nat -> nth_error (pre ++ l) j = Some (Some y) -> y < x) end.
Proof.
  induction l as [|a l IH]; intros pre best H.
  - cbn. rewrite app_nil_r. exact H.
  - replace (pre ++ a :: l) with ((pre ++ [a]) ++ l) by (rewrite <- app_assoc; reflexivity).
    assert (E : S (length pre) = length (pre ++ [a])) by (rewrite app_length; cbn; lia).
    assert (Lt : forall j (v : option R), nth_error (pre ++ [a]) j = Some v -> (j < length pre)%nat /\ nth_error pre j = Some v \/ j = length pre /\ v = a).
    { intros j v Hj. destruct (lt_eq_lt_dec j (length pre)) as [[C|C]|C].
      - left. rewrite nth_error_app1 in Hj by exact C. auto.
      - right. subst j. rewrite nth_error_app2, Nat.sub_diag in Hj by lia. cbn in Hj. inversion Hj; auto.
      - assert (N : nth_error (pre ++ [a]) j = None) by (apply nth_error_None; rewrite app_length; cbn; lia). congruence. }
    destruct a as [x|]; cbn [nanargmax_]; rewrite E; apply IH.
    + assert (Nx : nth_error (pre ++ [Some x]) (length pre) = Some (Some x)) by (rewrite nth_error_app2, Nat.sub_diag by lia; reflexivity).
      destruct best as [[i b]|].
      * destruct H as (Ha & Hb & Hc). assert (Hil : (i < length pre)%nat) by (apply nth_error_Some; congruence).
        destruct (Rltb_spec b x) as [C|C].
        -- split; [exact Nx|]. split.
           ++ intros j y Hj. apply Lt in Hj. destruct Hj as [[_ Hj]|[_ Hj]]; [apply Hb in Hj; lra|inversion Hj; lra].
           ++ intros j y Hl Hj. apply Lt in Hj. destruct Hj as [[_ Hj]|[Hj _]]; [apply Hb in Hj; lra|lia].
        -- split; [rewrite nth_error_app1 by exact Hil; exact Ha|]. split.
           ++ intros j y Hj. apply Lt in Hj. destruct Hj as [[_ Hj]|[_ Hj]]; [apply Hb in Hj; lra|inversion Hj; lra].
           ++ intros j y Hl Hj. apply Lt in Hj. destruct Hj as [[_ Hj]|[Hj _]]; [apply (Hc _ _ Hl Hj)|lia].
      * split; [exact Nx|]. split.
        -- intros j y Hj. apply Lt in Hj. destruct Hj as [[_ Hj]|[_ Hj]]; [exfalso; exact (H _ _ Hj)|inversion Hj; lra].
        -- intros j y Hl Hj. apply Lt in Hj. destruct Hj as [[_ Hj]|[Hj _]]; [exfalso; exact (H _ _ Hj)|lia].
    + destruct best as [[i b]|].
      * destruct H as (Ha & Hb & Hc). assert (Hil : (i < length pre)%nat) by (apply nth_error_Some; congruence).
        split; [rewrite nth_error_app1 by exact Hil; exact Ha|]. split.
        -- intros j y Hj. apply Lt in Hj. destruct Hj as [[_ Hj]|[_ Hj]]; [apply (Hb _ _ Hj)|discriminate].
        -- intros j y Hl Hj. apply Lt in Hj. destruct Hj as [[_ Hj]|[Hj _]]; [apply (Hc _ _ Hl Hj)|lia].
      * intros j y Hj. apply Lt in Hj. destruct Hj as [[_ Hj]|[_ Hj]]; [exact (H _ _ Hj)|discriminate].
Qed.
Lemma nanargmax_ok l : (exists j y, nth_error l j = Some (Some y)) -> exists i, nanargmax l = Ok i /\ is_argmax l i.
Proof.
  intros (j & y & Hj). unfold nanargmax. pose proof (nanargmax_some l [] None (fun j y => ltac:(destruct j; discriminate))) as H. cbn [length app] in H.
  destruct (nanargmax_ 0 None l) as [[i x]|]; [|exfalso; exact (H _ _ Hj)]. exists i. split; [reflexivity|]. exists x. exact H.
Qed.
Lemma nanargmax_err l : (forall j y, nth_error l j <> Some (Some y)) -> nanargmax l = Err ValueError.
Proof.
  intros N. unfold nanargmax. pose proof (nanargmax_some l [] None (fun j y => ltac:(destruct j; discriminate))) as H. cbn [length app] in H.
  destruct (nanargmax_ 0 None l) as [[i x]|]; [|reflexivity]. exfalso. exact (N _ _ (proj1 H)).
Qed.

(** ** The end of a ray *)
Lemma direction_sin_cos h : direction h = (sin (h * PI / 180), cos (h * PI / 180)).
Proof.
  unfold direction. cbv zeta. replace (- (h - 90) * (PI / 180)) with (PI / 2 - h * PI / 180) by (field).
  rewrite cos_shift, sin_shift. reflexivity.
Qed.

Lemma strictly_inside_amin a x : between (fst (fst a)) (snd (fst a)) x <-> amin a <= x <= amax a.
Proof. unfold between, amin, amax. reflexivity. Qed.

Lemma ray_exit g ox oy h : Rmin (fst (gxlim g)) (snd (gxlim g)) < ox < Rmax (fst (gxlim g)) (snd (gxlim g)) -> Rmin (fst (gylim g)) (snd (gylim g)) < oy < Rmax (fst (gylim g)) (snd (gylim g)) ->
  exists t, snd (ray_points g (ox, oy) h) = Some (ox + t * sin (h * PI / 180), oy + t * cos (h * PI / 180)) /\ 0 <= t
    /\ (forall u, 0 <= u -> ((in_axis (xaxis g) (ox + u * sin (h * PI / 180)) /\ in_axis (yaxis g) (oy + u * cos (h * PI / 180))) <-> u <= t)).
Proof.
  intros Hx Hy. unfold ray_points. cbv zeta. rewrite direction_sin_cos. cbn [fst snd].
  set (s := sin (h * PI / 180)). set (c := cos (h * PI / 180)).
  assert (SC : s * s + c * c = 1) by (pose proof (sin2_cos2 (h * PI / 180)) as H; unfold Rsqr in H; exact H).
  assert (Bx : amin (xaxis g) < ox < amax (xaxis g)) by exact Hx. assert (By : amin (yaxis g) < oy < amax (yaxis g)) by exact Hy.
  pose proof (ray_box_cases 2 [ox; oy] [s; c] [amin (xaxis g); amin (yaxis g)] [amax (xaxis g); amax (yaxis g)]) as RB. cbv zeta in RB.
  assert (P : forall t, ray_in_box 2 [ox; oy] [s; c] [amin (xaxis g); amin (yaxis g)] [amax (xaxis g); amax (yaxis g)] t <-> in_axis (xaxis g) (ox + t * s) /\ in_axis (yaxis g) (oy + t * c)).
  { intros t. unfold ray_in_box, in_axis. rewrite !strictly_inside_amin. split.
    - intros H. split; [exact (H 0%nat (Nat.lt_0_succ _))|exact (H 1%nat (le_n _))].
    - intros [H1 H2] [|[|i]] Hi; [exact H1|exact H2|lia]. }
  destruct (ray_box [ox; oy] [s; c] [amin (xaxis g); amin (yaxis g)] [amax (xaxis g); amax (yaxis g)]) as [e x].
  assert (R0 : in_axis (xaxis g) (ox + 0 * s) /\ in_axis (yaxis g) (oy + 0 * c)) by (unfold in_axis; rewrite !strictly_inside_amin; lra).
  destruct RB as [(-> & -> & N)|[(b & -> & -> & Hb & _ & B)|(a & b & -> & -> & Hab & B)]].
  - left; reflexivity.
  - reflexivity.
  - intros [|[|i]] Hi; cbn; lra || lia.
  - destruct (Req_EM_T s 0) as [Z0|NZ]; [exists 1%nat|exists 0%nat]; cbn; split; try lia; [|exact NZ]. intros E. rewrite E, Z0 in SC. lra.
  - cbn. intros _. lra.
  - exfalso. apply (N 0); [lra|]. apply P. exact R0.
  - exists b. cbn [snd]. split; [reflexivity|]. split; [exact Hb|]. intros u Hu. rewrite <- P. apply B. exact Hu.
  - exists b. cbn [snd]. split; [reflexivity|]. split; [lra|]. intros u Hu. rewrite <- P, B.
    assert (a = 0). { assert (a <= 0 <= b) by (apply B; apply P; exact R0). lra. } lra.
Qed.
