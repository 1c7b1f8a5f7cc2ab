(** C83, C84: filters with masks (helpers.gaussian_filter, helpers.maximum_filter, Raster.fill_crevasses). *)
From Verif Require Import Base BaseLemmas FilterModel.
Open Scope R_scope.

(** * Specification *)
(** sum over the cells of the array that are included *)
Definition sum_included (n : nat) (mask : nat -> bool) (f : nat -> R) : R := fold_right Rplus 0 (map (fun j => if mask j then f j else 0) (seq 0 n)).
(** weights of a gaussian average: not negative, positive for the cell itself *)
Definition weights (n : nat) (w : nat -> nat -> R) : Prop := (forall i j, 0 <= w i j) /\ forall i, (i < n)%nat -> 0 < w i i.
(** the included cells of the array have numbers *)
Definition numbers (n : nat) (mask : nat -> bool) (a : array) (v : nat -> R) : Prop := forall j, (j < n)%nat -> mask j = true -> a j = Some (v j).
(** included cells that count for cell i *)
Definition has_neighbour (n : nat) (w : nat -> nat -> R) (mask : nat -> bool) (i : nat) : Prop := exists j, (j < n)%nat /\ mask j = true /\ 0 < w i j.

Lemma sum_terms n mask (w : nat -> R) (a : array) v l : numbers n mask a v -> (forall j, In j l -> (j < n)%nat) ->
  fold_right oplus (Some 0) (map (fun j => term (w j) (if mask j then a j else Some 0)) l) = Some (fold_right Rplus 0 (map (fun j => if mask j then w j * v j else 0) l)).
Proof.
  intros N. induction l as [|j l IH]; intros H; [reflexivity|]. cbn [map fold_right]. rewrite IH by (intros; apply H; right; assumption).
  destruct (mask j) eqn:M; [rewrite (N j (H j (or_introl eq_refl)) M)|]; cbn [term oplus]; f_equal; ring.
Qed.
Lemma gauss_included n w mask a v i : numbers n mask a v -> gauss n w false (fun j => if mask j then a j else Some 0) i = Some (sum_included n mask (fun j => w i j * v j)).
Proof. intros N. unfold gauss, sum_included. rewrite (sum_terms n mask (w i) a v) by (first [exact N|intros j Hj; apply in_seq in Hj; lia]). reflexivity. Qed.
Lemma gauss_count n w (mask : nat -> bool) i : gauss n w false (fun j => if mask j then Some 1 else Some 0) i = Some (sum_included n mask (w i)).
Proof.
  rewrite (gauss_included n w mask (fun _ : nat => Some 1) (fun _ : nat => 1) i) by (intros j _ _; reflexivity). f_equal. unfold sum_included. f_equal. apply map_ext. intros j. destruct (mask j); ring.
Qed.
Lemma sum_nonneg n mask f : (forall j, 0 <= f j) -> 0 <= sum_included n mask f.
Proof. intros H. unfold sum_included. induction (seq 0 n) as [|j l IH]; cbn [map fold_right]; [lra|]. specialize (H j). destruct (mask j); lra. Qed.
Lemma sum_le n mask f g : (forall j, (j < n)%nat -> mask j = true -> f j <= g j) -> sum_included n mask f <= sum_included n mask g.
Proof.
  intros H. unfold sum_included. assert (B : forall j, In j (seq 0 n) -> (j < n)%nat) by (intros j Hj; apply in_seq in Hj; lia). revert B. induction (seq 0 n) as [|j l IH]; intros B; cbn [map fold_right]; [lra|].
  assert (IH' := IH (fun k Hk => B k (or_intror Hk))). specialize (H j (B j (or_introl eq_refl))). destruct (mask j); [specialize (H eq_refl)|]; lra.
Qed.
Lemma sum_scale n mask f c : sum_included n mask (fun j => f j * c) = sum_included n mask f * c.
Proof. unfold sum_included. induction (seq 0 n) as [|j l IH]; cbn [map fold_right]; [ring|]. rewrite IH. destruct (mask j); ring. Qed.
Lemma sum_pos_in n mask f j : (forall j, 0 <= f j) -> (j < n)%nat -> mask j = true -> 0 < f j -> 0 < sum_included n mask f.
Proof.
  intros H Hj M P. unfold sum_included. assert (I : In j (seq 0 n)) by (apply in_seq; lia). induction (seq 0 n) as [|k l IH]; [destruct I|]. cbn [map fold_right].
  assert (Q : 0 <= fold_right Rplus 0 (map (fun j => if mask j then f j else 0) l)). { clear IH I. induction l as [|q l IH]; cbn [map fold_right]; [lra|]. specialize (H q). destruct (mask q); lra. }
  destruct I as [->|I]; [rewrite M; lra|]. specialize (IH I). specialize (H k). destruct (mask k); lra.
Qed.
Lemma sum_zero n mask f : (forall j, 0 <= f j) -> (~ exists j, (j < n)%nat /\ mask j = true /\ 0 < f j) -> sum_included n mask f = 0.
Proof.
  intros H N. assert (Z : forall j, (j < n)%nat -> mask j = true -> f j <= 0). { intros j Hj M. destruct (Rle_dec (f j) 0); [assumption|]. exfalso. apply N. exists j. split; [exact Hj|]. split; [exact M|]. lra. }
  pose proof (sum_nonneg n mask f H). assert (L : sum_included n mask f <= sum_included n mask (fun _ => 0 * 0)) by (apply sum_le; intros j Hj M; specialize (Z j Hj M); lra).
  rewrite (sum_scale n mask (fun _ => 0) 0) in L. lra.
Qed.

(** * Theorems *)
(** C83: an included cell, and with fill every cell near one, gets the weighted average of the included cells around it; excluded cells have no
    influence and, without fill, keep their value *)
Theorem gaussian_average : forall n w mask fill a v i, weights n w -> numbers n mask a v -> (i < n)%nat ->
  let out := gaussian_filter n w false (Some mask) fill a in
  (fill = false -> mask i = false -> out i = a i) /\
  (fill = true \/ mask i = true -> has_neighbour n w mask i ->
     out i = Some (sum_included n mask (fun j => w i j * v j) / sum_included n mask (w i))) /\
  (mask i = true -> has_neighbour n w mask i) /\
  (fill = true -> ~ has_neighbour n w mask i -> out i = None).
Proof.
  intros n w mask fill a v i [W0 W1] N Hi. cbv zeta. unfold gaussian_filter. rewrite (gauss_included n w mask a v i N), gauss_count. split; [|split; [|split]].
  - intros -> M. rewrite M. reflexivity.
  - intros C (j & Hj & Mj & P). assert (Q : (negb fill && negb (mask i))%bool = false) by (destruct C as [->|M]; [reflexivity|rewrite M; apply andb_false_r]). rewrite Q. cbn [odiv].
    pose proof (sum_pos_in n mask (w i) j (W0 i) Hj Mj P) as S. destruct (Reqb (sum_included n mask (w i)) 0) eqn:R; [apply Reqb_true in R; lra|reflexivity].
  - intros M. exists i. auto.
  - intros -> H. cbn [negb andb odiv]. destruct (Reqb (sum_included n mask (w i)) 0) eqn:R; [reflexivity|]. apply Reqb_false in R. exfalso. apply R. apply sum_zero; [apply W0|exact H].
Qed.
Print Assumptions gaussian_average.

(** C83: averages stay within the range of the included cells around *)
Theorem gaussian_range : forall n w mask fill a v i lo hi, weights n w -> numbers n mask a v -> (i < n)%nat -> fill = true \/ mask i = true -> has_neighbour n w mask i ->
  (forall j, (j < n)%nat -> mask j = true -> 0 < w i j -> lo <= v j <= hi) ->
  exists x, gaussian_filter n w false (Some mask) fill a i = Some x /\ lo <= x <= hi.
Proof.
  intros n w mask fill a v i lo hi W N Hi C H B. destruct (gaussian_average n w mask fill a v i W N Hi) as (_ & E & _). specialize (E C H). eexists. split; [exact E|].
  destruct W as [W0 W1]. destruct H as (j & Hj & Mj & P). pose proof (sum_pos_in n mask (w i) j (W0 i) Hj Mj P) as S.
  assert (L : sum_included n mask (w i) * lo <= sum_included n mask (fun j => w i j * v j)).
  { rewrite <- sum_scale. apply sum_le. intros k Hk Mk. specialize (B k Hk Mk). pose proof (W0 i k). destruct (Req_dec (w i k) 0) as [Z|Z]; [rewrite Z; lra|]. specialize (B ltac:(lra)). nra. }
  assert (U : sum_included n mask (fun j => w i j * v j) <= sum_included n mask (w i) * hi).
  { rewrite <- sum_scale. apply sum_le. intros k Hk Mk. specialize (B k Hk Mk). pose proof (W0 i k). destruct (Req_dec (w i k) 0) as [Z|Z]; [rewrite Z; lra|]. specialize (B ltac:(lra)). nra. }
  set (d := sum_included n mask (w i)) in *. set (s := sum_included n mask (fun j => w i j * v j)) in *. clearbody d s.
  split; apply Rmult_le_reg_r with d; try exact S; unfold Rdiv; rewrite Rmult_assoc, Rinv_l, Rmult_1_r by lra; lra.
Qed.
Print Assumptions gaussian_range.

(** C83, refuted: for integer arrays, whose averages scipy truncates, included cells near excluded ones get nan or inf *)
Theorem gaussian_integer_refuted : forall n w mask fill a i j, weights n w -> sum_included n (fun _ => true) (w i) = 1 ->
  (j < n)%nat -> mask j = false -> 0 < w i j -> mask i = true -> gaussian_filter n w true (Some mask) fill a i = None.
Proof.
  intros n w mask fill a i j [W0 W1] S1 Hj Mj P Mi. unfold gaussian_filter. rewrite Mi, andb_false_r.
  assert (G : gauss n w true (fun j => if mask j then Some 1 else Some 0) i = Some 0).
  { pose proof (gauss_count n w mask i) as C. unfold gauss in *. destruct (fold_right oplus _ _) as [s|]; [|discriminate]. injection C as C. f_equal.
    assert (L : 0 <= s < 1).
    { split; [rewrite C; apply sum_nonneg, W0|]. rewrite C.
      assert (E : sum_included n mask (w i) + sum_included n (fun j => negb (mask j)) (w i) = 1).
      { rewrite <- S1. unfold sum_included. clear. induction (seq 0 n) as [|k l IH]; cbn [map fold_right]; [lra|]. destruct (mask k); cbn [negb]; lra. }
      pose proof (sum_pos_in n (fun j => negb (mask j)) (w i) j (W0 i) Hj ltac:(cbn beta; rewrite Mj; reflexivity) P). lra. }
    unfold Rtrunc. destruct (Rltb s 0) eqn:Q; [apply Rltb_true in Q; lra|]. replace (Rfloor s) with 0%Z by (symmetry; apply Rfloor_imp; cbn; lra). reflexivity. }
  rewrite G. unfold odiv. destruct (gauss n w true (fun j => if mask j then a j else Some 0) i); [|reflexivity]. destruct (Reqb 0 0) eqn:Q; [reflexivity|]. apply Reqb_false in Q. contradiction.
Qed.
Print Assumptions gaussian_integer_refuted.

(** ** Maximum *)
(** the window of a cell contains the cell itself, and cells of the array only *)
Definition windows (n : nat) (near : nat -> list nat) : Prop := forall i, (i < n)%nat -> In i (near i) /\ forall j, In j (near i) -> (j < n)%nat.
(** x is the greatest value of the included cells of a window *)
Definition greatest (window : list nat) (mask : nat -> bool) (v : nat -> R) (x : R) : Prop :=
  (exists j, In j window /\ mask j = true /\ v j = x) /\ forall j, In j window -> mask j = true -> v j <= x.

Lemma fold_max_ge l x : x <= fold_left Rmax l x /\ forall y, In y l -> y <= fold_left Rmax l x.
Proof.
  revert x; induction l as [|a l IH]; intros x; cbn [fold_left]; [split; [lra|intros y []]|]. destruct (IH (Rmax x a)) as [A B]. pose proof (Rmax_l x a). pose proof (Rmax_r x a). split; [lra|]. intros y [->|I]; [lra|auto].
Qed.
Lemma fold_max_in l x : fold_left Rmax l x = x \/ In (fold_left Rmax l x) l.
Proof.
  revert x; induction l as [|a l IH]; intros x; cbn [fold_left]; [left; reflexivity|]. destruct (IH (Rmax x a)) as [E|I]; [|right; right; exact I].
  rewrite E. unfold Rmax. destruct (Rle_dec x a); [right; left; reflexivity|left; reflexivity].
Qed.
Lemma all_some_map (f : nat -> option R) (g : nat -> R) l : (forall j, In j l -> f j = Some (g j)) -> all_some (map f l) = Some (map g l).
Proof. induction l as [|j l IH]; intros H; [reflexivity|]. cbn [map all_some]. rewrite (H j (or_introl eq_refl)), IH by (intros; apply H; right; assumption). reflexivity. Qed.
(** the greatest of the window, excluded cells counting as [low] *)
Lemma maxf_spec n near junk mask a v low i : windows n near -> numbers n mask a v -> (i < n)%nat ->
  exists x, maxf near junk (fun j => if mask j then a j else Some low) i = Some x /\
  (exists j, In j (near i) /\ (if mask j then v j else low) = x) /\ forall j, In j (near i) -> (if mask j then v j else low) <= x.
Proof.
  intros W N Hi. destruct (W i Hi) as [I B]. unfold maxf.
  rewrite (all_some_map _ (fun j => if mask j then v j else low)).
  2:{ intros j Hj. destruct (mask j) eqn:M; [|reflexivity]. apply N; [apply B, Hj|exact M]. }
  set (g := fun j => if mask j then v j else low). change (forall j, In j (near i) -> g j <= g j) with (forall j, In j (near i) -> g j <= g j).
  destruct (near i) as [|k l] eqn:En; [destruct I|]. cbn [map]. exists (fold_left Rmax (map g l) (g k)). split; [reflexivity|]. destruct (fold_max_ge (map g l) (g k)) as [G1 G2]. split.
  - destruct (fold_max_in (map g l) (g k)) as [E|Hin]; [exists k; split; [left; reflexivity|symmetry; exact E]|]. apply in_map_iff in Hin as (j & E & Hj). exists j. split; [right; exact Hj|exact E].
  - intros j [->|Hj]; [exact G1|]. exact (G2 _ (in_map g _ _ Hj)).
Qed.

(** C84: an included cell gets the greatest value of the included cells in its window (provided values are at least the least finite number of
    their data type); without fill, an excluded cell keeps its value; with fill it gets the greatest included value in its window, if there is one
    above that number, and keeps its value otherwise *)
Theorem maximum_greatest : forall n near junk low mask fill a v i, windows n near -> numbers n mask a v -> (i < n)%nat ->
  (forall j, (j < n)%nat -> mask j = true -> low <= v j) ->
  let out := maximum_filter near junk low (Some mask) fill a in
  (mask i = true -> exists x, out i = Some x /\ greatest (near i) mask v x) /\
  (mask i = false -> fill = false -> out i = a i) /\
  (mask i = false -> fill = true -> (exists j, In j (near i) /\ mask j = true /\ low < v j) -> exists x, out i = Some x /\ greatest (near i) mask v x) /\
  (mask i = false -> fill = true -> ~ (exists j, In j (near i) /\ mask j = true /\ low < v j) -> out i = a i).
Proof.
  intros n near junk low mask fill a v i W N Hi Lo. cbv zeta. destruct (W i Hi) as [I B]. unfold maximum_filter.
  destruct (maxf_spec n near junk mask a v low i W N Hi) as (x & E & (k & Ik & Ek) & U). rewrite E.
  assert (Gr : (exists j, In j (near i) /\ mask j = true /\ low < v j) -> greatest (near i) mask v x /\ low < x).
  { intros (j & Ij & Mj & Lj). pose proof (U j Ij) as Uj. rewrite Mj in Uj. split; [|lra]. split.
    - exists k. destruct (mask k); [auto|lra].
    - intros q Iq Mq. pose proof (U q Iq) as Uq. rewrite Mq in Uq. exact Uq. }
  split; [|split; [|split]].
  - intros M. assert (G : greatest (near i) mask v x).
    { split; [|intros q Iq Mq; pose proof (U q Iq) as Uq; rewrite Mq in Uq; exact Uq]. destruct (mask k) eqn:Mk; [exists k; auto|]. exists i. split; [exact I|]. split; [exact M|].
      pose proof (U i I) as Ui. rewrite M in Ui. pose proof (Lo i Hi M). lra. }
    destruct fill.
    + rewrite E. cbn [is_low]. destruct (Reqb x low) eqn:Q; [|exists x; auto]. apply Reqb_true in Q. exists x. split; [|exact G]. rewrite (N i Hi M). f_equal.
      pose proof (U i I) as Ui. rewrite M in Ui. pose proof (Lo i Hi M). lra.
    + rewrite M. cbn [negb]. exists x. auto.
  - intros M ->. rewrite M. reflexivity.
  - intros M -> H. destruct (Gr H) as [G L]. rewrite E. cbn [is_low]. destruct (Reqb x low) eqn:Q; [apply Reqb_true in Q; lra|]. exists x. auto.
  - intros M -> H. rewrite E. cbn [is_low]. destruct (Reqb x low) eqn:Q; [reflexivity|]. apply Reqb_false in Q. exfalso. destruct (mask k) eqn:Mk; [|congruence].
    apply H. exists k. split; [exact Ik|]. split; [exact Mk|]. pose proof (Lo k (B k Ik) Mk). lra.
Qed.
Print Assumptions maximum_greatest.
(** C84, refuted: included cells below that number (-inf) next to an excluded cell become this number, not the greatest of them *)
Theorem maximum_infinite_refuted : forall n near junk low mask a v i j, windows n near -> numbers n mask a v -> (i < n)%nat ->
  mask i = true -> In j (near i) -> mask j = false -> (forall k, In k (near i) -> mask k = true -> v k < low) ->
  exists x, maximum_filter near junk low (Some mask) false a i = Some x /\ x = low /\ ~ greatest (near i) mask v x.
Proof.
  intros n near junk low mask a v i j W N Hi M Ij Mj H. unfold maximum_filter. rewrite M. cbn [negb].
  destruct (maxf_spec n near junk mask a v low i W N Hi) as (x & E & (k & Ik & Ek) & U). exists x. split; [exact E|].
  assert (X : x = low). { pose proof (U j Ij) as Uj. rewrite Mj in Uj. destruct (mask k) eqn:Mk; [pose proof (H k Ik Mk); lra|congruence]. }
  split; [exact X|]. intros [(q & Iq & Mq & Eq) _]. pose proof (H q Iq Mq). lra.
Qed.
Print Assumptions maximum_infinite_refuted.

(** C84: fill_crevasses leaves excluded cells as they are (without fill) and keeps included cells within the range of the included values *)
Theorem crevasses_range : forall n w near junk low mask fill a v i lo hi, weights n w -> windows n near -> numbers n mask a v -> (i < n)%nat ->
  (forall j, (j < n)%nat -> mask j = true -> low <= v j) -> (forall j, (j < n)%nat -> mask j = true -> lo <= v j <= hi) ->
  let out := fill_crevasses n w near junk low false (Some mask) fill a in
  (mask i = true -> exists x, out i = Some x /\ lo <= x <= hi) /\ (mask i = false -> fill = false -> out i = a i) /\
  (mask i = false -> fill = true -> has_neighbour n w mask i -> exists x, out i = Some x /\ lo <= x <= hi).
Proof.
  intros n w near junk low mask fill a v i lo hi Wt W N Hi Lo R. cbv zeta. unfold fill_crevasses. set (b := maximum_filter near junk low (Some mask) fill a).
  assert (V : forall j, (j < n)%nat -> mask j = true -> exists x, b j = Some x /\ lo <= x <= hi).
  { intros j Hj Mj. destruct (maximum_greatest n near junk low mask fill a v j W N Hj Lo) as (G & _). destruct (G Mj) as (x & E & (k & Ik & Mk & Ek) & _). exists x. split; [exact E|]. rewrite <- Ek. apply R; [apply (W j Hj), Ik|exact Mk]. }
  set (u := fun j => match b j with Some x => x | None => 0 end).
  assert (Nb : numbers n mask b u). { intros j Hj Mj. destruct (V j Hj Mj) as (x & E & _). unfold u. rewrite E. reflexivity. }
  assert (Ru : forall j, (j < n)%nat -> mask j = true -> 0 < w i j -> lo <= u j <= hi). { intros j Hj Mj _. destruct (V j Hj Mj) as (x & E & B). unfold u. rewrite E. exact B. }
  destruct (gaussian_average n w mask fill b u i Wt Nb Hi) as (G1 & _ & G3 & _). split; [|split].
  - intros M. apply (gaussian_range n w mask fill b u i lo hi Wt Nb Hi (or_intror M) (G3 M) Ru).
  - intros M F. rewrite (G1 F M). destruct (maximum_greatest n near junk low mask fill a v i W N Hi Lo) as (_ & G & _). exact (G M F).
  - intros M F H. apply (gaussian_range n w mask fill b u i lo hi Wt Nb Hi (or_introl F) H Ru).
Qed.
Print Assumptions crevasses_range.

(** ** The hypotheses are met: three cells in a row, the second excluded (nan) *)
Definition row3 (j : nat) : option R := match j with 0%nat => Some 1 | 2%nat => Some 4 | _ => None end.
Definition val3 (j : nat) : R := match j with 0%nat => 1 | _ => 4 end.
Definition mask3 (j : nat) : bool := match j with 1%nat => false | _ => true end.
Definition w3 (i j : nat) : R := if Nat.eqb i j then / 2 else / 4.
Definition near3 (i : nat) : list nat := [0; 1; 2]%nat.
Lemma weights3 : weights 3 w3.
Proof. split; [intros i j; unfold w3; destruct (Nat.eqb i j); lra|intros i _; unfold w3; rewrite Nat.eqb_refl; lra]. Qed.
Lemma windows3 : windows 3 near3.
Proof. intros i Hi. split; [unfold near3; cbn; lia|]. intros j Hj. unfold near3 in Hj. cbn in Hj. lia. Qed.
Lemma numbers3 : numbers 3 mask3 row3 val3.
Proof. intros j Hj M. destruct j as [|[|[|j]]]; try reflexivity; [discriminate|lia]. Qed.
Example gaussian_applies : gaussian_filter 3 w3 false (Some mask3) true row3 1%nat = Some (5 / 2) /\ gaussian_filter 3 w3 true (Some mask3) true row3 0%nat = None.
Proof.
  split.
  - destruct (gaussian_average 3 w3 mask3 true row3 val3 1 weights3 numbers3 ltac:(lia)) as (_ & E & _). rewrite E; [|left; reflexivity|].
    + f_equal. unfold sum_included. cbn [seq map fold_right mask3 w3 val3 Nat.eqb]. field.
    + exists 0%nat. split; [lia|]. split; [reflexivity|]. cbn. lra.
  - apply (gaussian_integer_refuted 3 w3 mask3 true row3 0 1 weights3); [|lia|reflexivity|cbn; lra|reflexivity]. unfold sum_included. cbn [seq map fold_right w3 Nat.eqb]. field.
Qed.
Example maximum_applies : exists x, maximum_filter near3 (fun _ => None) 0 (Some mask3) true row3 1%nat = Some x /\ greatest (near3 1) mask3 val3 x.
Proof.
  destruct (maximum_greatest 3 near3 (fun _ => None) 0 mask3 true row3 val3 1 windows3 numbers3 ltac:(lia)) as (_ & _ & G & _); [intros [|j] _ _; cbn; lra|].
  apply G; [reflexivity|reflexivity|]. exists 0%nat. cbn. split; [tauto|]. split; [reflexivity|lra].
Qed.
