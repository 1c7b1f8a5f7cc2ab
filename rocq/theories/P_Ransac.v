(** Property C52: ransac and its samples. *)
From Coq Require Import Permutation Sorting.Sorted.
From Verif Require Import Base BaseLemmas RansacModel.
Open Scope R_scope.

(** [q] with mean error [e] is what a sample proposes: the model is fit to the sample, the other members with
    errors below the maximum are added (at least one more than [min_inliers]) and the model is fit to them all. *)
Definition proposal {P} (m : rmodel P) (max_error : R) (min_inliers : Z) (sample : list nat) (q : P) (e : R) : Prop :=
  exists p also, rm_fit m sample = Some p /\
  StronglySorted lt also /\ (forall i, In i also <-> (i < rm_size m)%nat /\ ~ In i sample /\ rm_error m p i < max_error) /\
  (min_inliers < Z.of_nat (length also))%Z /\ sample ++ also <> [] /\
  rm_fit m (sample ++ also) = Some q /\ e = fold_right Rplus 0 (map (rm_error m q) (sample ++ also)) / INR (length (sample ++ also)).

Lemma mem_In i l : mem i l = true <-> In i l.
Proof. unfold mem. rewrite existsb_exists. split; [intros (x & I & E); apply Nat.eqb_eq in E; now subst|]. intros I. exists i. split; [exact I|apply Nat.eqb_refl]. Qed.
Lemma sorted_filter (f : nat -> bool) l : StronglySorted lt l -> StronglySorted lt (filter f l).
Proof.
  induction 1 as [|a l S IH F]; cbn; [constructor|]. destruct (f a); [|exact IH]. constructor; [exact IH|]. rewrite Forall_forall in *. intros x I. apply filter_In in I. apply F, I.
Qed.
Lemma seq_sorted : forall n a, StronglySorted lt (seq a n).
Proof. induction n as [|n IH]; intros a; cbn; constructor; [apply IH|]. rewrite Forall_forall. intros x I. apply in_seq in I. lia. Qed.
Lemma sorted_ext l1 : forall l2, StronglySorted lt l1 -> StronglySorted lt l2 -> (forall i : nat, In i l1 <-> In i l2) -> l1 = l2.
Proof.
  induction l1 as [|a l1 IH]; intros [|b l2] S1 S2 H; [reflexivity|exfalso; destruct (proj2 (H b)); now left|exfalso; destruct (proj1 (H a)); now left|].
  inversion S1 as [|? ? S1' F1]; inversion S2 as [|? ? S2' F2]; subst. rewrite Forall_forall in F1, F2.
  assert (a = b). { destruct (proj1 (H a)) as [E|I]; [now left|auto|]. destruct (proj2 (H b)) as [E|I']; [now left|auto|]. apply F2 in I. apply F1 in I'. lia. } subst b.
  f_equal. apply IH; [assumption|assumption|]. intros i. split; intros I.
  - destruct (proj1 (H i)) as [E|J]; [now right| |exact J]. subst i. apply F1 in I. lia.
  - destruct (proj2 (H i)) as [E|J]; [now right| |exact J]. subst i. apply F2 in I. lia.
Qed.
Lemma Rltb_iff x y : Rltb x y = true <-> x < y. Proof. unfold Rltb. destruct (Rlt_dec x y); split; try discriminate; try contradiction; auto. Qed.
Lemma Rleb_iff x y : Rleb x y = true <-> x <= y. Proof. unfold Rleb. destruct (Rle_dec x y); split; try discriminate; try contradiction; auto. Qed.

(** the model's computation is a proposal *)
Definition others {P} (m : rmodel P) (max_error : R) (sample : list nat) (p : P) : list nat :=
  filter (fun i => Rltb (rm_error m p i) max_error) (filter (fun i => negb (mem i sample)) (seq 0 (rm_size m))).
Lemma others_spec {P} (m : rmodel P) me sample p : StronglySorted lt (others m me sample p) /\ forall i, In i (others m me sample p) <-> (i < rm_size m)%nat /\ ~ In i sample /\ rm_error m p i < me.
Proof.
  split; [now apply sorted_filter, sorted_filter, seq_sorted|]. intros i. unfold others. rewrite !filter_In, in_seq, Rltb_iff, negb_true_iff. destruct (mem i sample) eqn:E.
  - apply mem_In in E. intuition discriminate.
  - assert (~ In i sample) by (intros I; apply mem_In in I; congruence). intuition lia.
Qed.
Definition propose {P} (m : rmodel P) (me : R) (mi : Z) (sample : list nat) : option (P * R) :=
  match rm_fit m sample with None => None | Some p =>
    if (mi <? Z.of_nat (length (others m me sample p)))%Z then
      match rm_fit m (sample ++ others m me sample p) with None => None
      | Some q => if (length (sample ++ others m me sample p) =? 0)%nat then None else Some (q, Rmean (map (rm_error m q) (sample ++ others m me sample p))) end
    else None end.
Lemma propose_iff {P} (m : rmodel P) me mi sample q e : propose m me mi sample = Some (q, e) <-> proposal m me mi sample q e.
Proof.
  unfold propose, proposal. split.
  - destruct (rm_fit m sample) as [p|] eqn:Ef; [|discriminate]. destruct (Z.ltb_spec mi (Z.of_nat (length (others m me sample p)))) as [L|]; [|discriminate].
    destruct (rm_fit m (sample ++ others m me sample p)) as [q'|] eqn:Eg; [|discriminate]. destruct (Nat.eqb_spec (length (sample ++ others m me sample p)) 0) as [|N]; [discriminate|].
    intros H. injection H as -> <-. exists p, (others m me sample p). destruct (others_spec m me sample p) as [A B]. unfold Rmean. rewrite map_length. repeat split; auto; try (apply B; assumption). intros Q. rewrite Q in N. now apply N.
  - intros (p & also & E1 & S & I & L & N & E2 & E3). destruct (others_spec m me sample p) as [A B].
    assert (also = others m me sample p) by (apply sorted_ext; auto; intros i; rewrite I, B; reflexivity). subst also. rewrite E1. rewrite (proj2 (Z.ltb_lt _ _) L), E2.
    destruct (Nat.eqb_spec (length (sample ++ others m me sample p)) 0) as [Q|]; [apply length_zero_iff_nil in Q; contradiction|]. unfold Rmean. rewrite map_length, <- E3. reflexivity.
Qed.
Lemma consider_eq {P} (m : rmodel P) me mi best sample : consider m me mi best sample =
  match propose m me mi sample with None => best | Some (q, e) => match best with None => Some (q, e) | Some (_, b) => if Rltb e b then Some (q, e) else best end end.
Proof.
  unfold consider, propose. fold (others m me sample). destruct (rm_fit m sample) as [p|]; [|reflexivity]. fold (others m me sample p). destruct (mi <? Z.of_nat (length (others m me sample p)))%Z; [|reflexivity].
  destruct (rm_fit m (sample ++ others m me sample p)) as [q|]; [|reflexivity]. destruct (length (sample ++ others m me sample p) =? 0)%nat; reflexivity.
Qed.
Lemma fold_consider {P} (m : rmodel P) me mi samples :
  match fold_left (consider m me mi) samples None with
  | None => forall s q e, In s samples -> ~ proposal m me mi s q e
  | Some (q, e) => exists k s, nth_error samples k = Some s /\ proposal m me mi s q e /\ forall j s' q' e', nth_error samples j = Some s' -> proposal m me mi s' q' e' -> e <= e' /\ ((j < k)%nat -> e < e')
  end.
Proof.
  induction samples as [|s samples IH] using rev_ind; [cbn; auto|]. rewrite fold_left_app. cbn [fold_left]. set (best := fold_left (consider m me mi) samples None) in *. rewrite consider_eq.
  assert (Last : nth_error (samples ++ [s]) (length samples) = Some s) by (rewrite nth_error_app2, Nat.sub_diag by lia; reflexivity).
  assert (Split : forall j s', nth_error (samples ++ [s]) j = Some s' -> (j < length samples)%nat /\ nth_error samples j = Some s' \/ j = length samples /\ s' = s).
  { intros j s' Hj. destruct (Nat.lt_ge_cases j (length samples)) as [L|L]; [left; rewrite nth_error_app1 in Hj by assumption; auto|]. right. rewrite nth_error_app2 in Hj by assumption. destruct (j - length samples)%nat as [|n] eqn:Ej; [|destruct n; discriminate]. injection Hj as <-. split; [lia|reflexivity]. }
  destruct (propose m me mi s) as [[q e]|] eqn:Ep.
  - assert (Pq : proposal m me mi s q e) by now apply propose_iff. destruct best as [[q0 b]|].
    + destruct IH as (k & s0 & K1 & K2 & K3). destruct (Rltb e b) eqn:Lt.
      * apply Rltb_iff in Lt. exists (length samples), s. split; [exact Last|]. split; [exact Pq|]. intros j s' q' e' Hj Hp. destruct (Split j s' Hj) as [[L Hj']|[-> ->]].
        -- destruct (K3 j s' q' e' Hj' Hp) as [M _]. split; [lra|]. intros _. lra.
        -- apply propose_iff in Hp. rewrite Ep in Hp. injection Hp as <- <-. split; [lra|lia].
      * assert (Ge : b <= e). { destruct (Rlt_dec e b) as [Q|Q]; [apply Rltb_iff in Q; congruence|lra]. }
        exists k, s0. split; [rewrite nth_error_app1; [exact K1|apply nth_error_Some; congruence]|]. split; [exact K2|]. intros j s' q' e' Hj Hp. destruct (Split j s' Hj) as [[L Hj']|[-> ->]].
        -- now apply (K3 j s' q' e').
        -- apply propose_iff in Hp. rewrite Ep in Hp. injection Hp as <- <-. split; [exact Ge|]. intros Q. assert (k < length samples)%nat by (apply nth_error_Some; congruence). lia.
    + exists (length samples), s. split; [exact Last|]. split; [exact Pq|]. intros j s' q' e' Hj Hp. destruct (Split j s' Hj) as [[L Hj']|[-> ->]].
      * exfalso. apply (IH s' q' e' (nth_error_In _ _ Hj') Hp).
      * apply propose_iff in Hp. rewrite Ep in Hp. injection Hp as <- <-. split; [lra|lia].
  - assert (Np : forall q' e', ~ proposal m me mi s q' e') by (intros q' e' Hp; apply propose_iff in Hp; congruence). destruct best as [[q0 b]|].
    + destruct IH as (k & s0 & K1 & K2 & K3). exists k, s0. split; [rewrite nth_error_app1; [exact K1|apply nth_error_Some; congruence]|]. split; [exact K2|]. intros j s' q' e' Hj Hp. destruct (Split j s' Hj) as [[L Hj']|[-> ->]]; [now apply (K3 j s' q' e')|exfalso; now apply (Np q' e')].
    + intros s' q' e' I Hp. apply in_app_or in I. destruct I as [I|[<-|[]]]; [now apply (IH s' q' e')|now apply (Np q' e')].
Qed.

(** The result is the proposal with the smallest mean error (the first of equals), and its inliers are the
    members of the whole set within the maximum error; it is an error if there is no proposal. *)
Theorem ransac_best : forall {P} (m : rmodel P) max_error min_inliers samples,
  (ransac m max_error min_inliers samples = Err ValueError /\ forall s q e, In s samples -> ~ proposal m max_error min_inliers s q e) \/
  exists q inliers, ransac m max_error min_inliers samples = Ok (q, inliers) /\
    (exists k s e, nth_error samples k = Some s /\ proposal m max_error min_inliers s q e /\
       forall j s' q' e', nth_error samples j = Some s' -> proposal m max_error min_inliers s' q' e' -> e <= e' /\ ((j < k)%nat -> e < e')) /\
    StronglySorted lt inliers /\ forall i, In i inliers <-> (i < rm_size m)%nat /\ rm_error m q i <= max_error.
Proof.
  intros P m me mi samples. pose proof (fold_consider m me mi samples) as F. unfold ransac. destruct (fold_left (consider m me mi) samples None) as [[q e]|]; [right|left; auto].
  do 2 eexists. split; [reflexivity|]. destruct F as (k & s & F1 & F2 & F3). split; [exists k, s, e; auto|]. split; [apply sorted_filter, seq_sorted|]. intros i. rewrite filter_In, in_seq, Rleb_iff. intuition lia.
Qed.
Print Assumptions ransac_best.

(** The full property (the returned inliers are more than [min_inliers]) is false: they are found again with the new
    parameters.  The library's own polynomial model: one accepted sample, 9 > 8 other inliers, but 7 in the result. *)
Definition cloud : list R := [0; 99; 99; 99; 99; 99; 99; -99; -99; -99].
Lemma within_lt a b c : - c < a - b < c -> Rltb (Rabs (a - b)) c = true.
Proof. intros H. apply Rltb_iff. unfold Rabs. destruct (Rcase_abs (a - b)); lra. Qed.
Lemma beyond_lt a b c : a - b <= - c \/ c <= a - b -> Rltb (Rabs (a - b)) c = false.
Proof. intros H. destruct (Rltb (Rabs (a - b)) c) eqn:E; [|reflexivity]. apply Rltb_iff in E. unfold Rabs in E. destruct (Rcase_abs (a - b)); lra. Qed.
Lemma within_le a b c : - c <= a - b <= c -> Rleb (Rabs (a - b)) c = true.
Proof. intros H. apply Rleb_iff. unfold Rabs. destruct (Rcase_abs (a - b)); lra. Qed.
Lemma beyond_le a b c : a - b < - c \/ c < a - b -> Rleb (Rabs (a - b)) c = false.
Proof. intros H. destruct (Rleb (Rabs (a - b)) c) eqn:E; [|reflexivity]. apply Rleb_iff in E. unfold Rabs in E. destruct (Rcase_abs (a - b)); lra. Qed.
Lemma filter_cloud (f : R -> bool) l : (forall i, In i l -> (i < 10)%nat) ->
  filter (fun j => f (nth j cloud 0)) l = filter (fun j => if (j =? 0)%nat then f 0 else if (j <? 7)%nat then f 99 else f (-99)) l.
Proof.
  intros H. apply filter_ext_in. intros i I. specialize (H i I). do 10 (destruct i as [|i]; [reflexivity|]). lia.
Qed.
Lemma others_cloud s p : others (constant_model cloud) 100 s p = filter (fun j => Rltb (Rabs (p - nth j cloud 0)) 100) (filter (fun i => negb (mem i s)) (seq 0 10)).
Proof. reflexivity. Qed.
Lemma fit_cloud i l : rm_fit (constant_model cloud) (i :: l) = Some (Rmean (map (fun i => nth i cloud 0) (i :: l))).
Proof. reflexivity. Qed.
Lemma mean_one (x : R) : Rmean [x] = x. Proof. unfold Rmean. cbn [fold_right length INR]. field. Qed.
Lemma cloud_other i : (1 <= i < 10)%nat -> propose (constant_model cloud) 100 8 [i] = None.
Proof.
  intros Hi. unfold propose. rewrite fit_cloud. cbn [map]. rewrite mean_one, others_cloud. set (v := nth i cloud 0).
  assert (Hv : v = 99 \/ v = -99). { unfold v. do 10 (destruct i as [|i]; [solve [lia|left; reflexivity|right; reflexivity]|]). lia. } clearbody v.
  rewrite (filter_cloud (fun y => Rltb (Rabs (v - y)) 100)) by (intros j J; apply filter_In in J; destruct J as [J _]; apply in_seq in J; lia).
  set (g := fun j => if (j =? 0)%nat then _ else _).
  assert (Len : (length (filter g (filter (fun j => negb (mem j [i])) (seq 0 10))) <= 7)%nat).
  { apply Nat.le_trans with (length (filter g (seq 0 10))).
    - assert (Q : forall (f g : nat -> bool) l, (length (filter f (filter g l)) <= length (filter f l))%nat). { intros f g'. induction l as [|x l IH]; cbn; [lia|]. destruct (g' x); cbn; destruct (f x); cbn; lia. } apply Q.
    - unfold g. destruct Hv as [-> | ->].
      + rewrite (within_lt 99 0), (within_lt 99 99), (beyond_lt 99 (-99)) by lra. cbn. lia.
      + rewrite (within_lt (-99) 0), (beyond_lt (-99) 99), (within_lt (-99) (-99)) by lra. cbn. lia. }
  rewrite (proj2 (Z.ltb_ge _ _)) by lia. reflexivity.
Qed.
Lemma cloud_zero : exists e, propose (constant_model cloud) 100 8 [0%nat] = Some (297 / 10, e).
Proof.
  unfold propose. rewrite fit_cloud. cbn [map]. rewrite mean_one, others_cloud. change (nth 0 cloud 0) with 0.
  rewrite (filter_cloud (fun y => Rltb (Rabs (0 - y)) 100)) by (intros j J; apply filter_In in J; destruct J as [J _]; apply in_seq in J; lia).
  rewrite (within_lt 0 0), (within_lt 0 99), (within_lt 0 (-99)) by lra.
  match goal with |- context [filter ?g (filter ?h (seq 0 10))] => change (filter g (filter h (seq 0 10))) with (seq 1 9) end.
  change (8 <? Z.of_nat (length (seq 1 9)))%Z with true. cbn iota. change ([0%nat] ++ seq 1 9) with (0%nat :: seq 1 9). rewrite fit_cloud. change (length (0%nat :: seq 1 9) =? 0)%nat with false. cbn iota.
  assert (M : Rmean (map (fun i => nth i cloud 0) (0%nat :: seq 1 9)) = 297 / 10) by (unfold Rmean; cbn [map seq nth cloud fold_right length INR]; field). rewrite M. eexists. reflexivity.
Qed.
Lemma fold_left_const {A B} (f : A -> B -> A) l b : (forall x, In x l -> f b x = b) -> fold_left f l b = b.
Proof. induction l as [|x l IH]; intros H; [reflexivity|]. cbn [fold_left]. rewrite H by now left. apply IH. intros; apply H; now right. Qed.
Lemma fold_left_first {A B} (f : A -> B -> A) x l b c : f b x = c -> (forall y, In y l -> f c y = c) -> fold_left f (x :: l) b = c.
Proof. intros E H. cbn [fold_left]. rewrite E. now apply fold_left_const. Qed.
Lemma cloud_fold : exists e, fold_left (consider (constant_model cloud) 100 8) (map (fun i => [i]) (seq 0 10)) None = Some (297 / 10, e).
Proof.
  destruct cloud_zero as [e P0]. exists e. assert (S : map (fun i => [i]) (seq 0 10) = [0%nat] :: map (fun i => [i]) (seq 1 9)) by reflexivity. rewrite S. apply fold_left_first.
  - rewrite consider_eq, P0. reflexivity.
  - intros y I. apply in_map_iff in I. destruct I as (i & <- & I). apply in_seq in I. rewrite consider_eq, cloud_other by lia. reflexivity.
Qed.
Lemma cloud_inliers : filter (fun i => Rleb (rm_error (constant_model cloud) (297 / 10) i) 100) (seq 0 (rm_size (constant_model cloud))) = seq 0 7.
Proof.
  assert (E : forall f : R -> bool, filter (fun i => f (nth i cloud 0)) (seq 0 10) = filter (fun j => if (j =? 0)%nat then f 0 else if (j <? 7)%nat then f 99 else f (-99)) (seq 0 10)).
  { intros f. apply filter_cloud. intros j J. apply in_seq in J. lia. }
  transitivity (filter (fun j => Rleb (Rabs (297 / 10 - nth j cloud 0)) 100) (seq 0 10)); [reflexivity|]. rewrite (E (fun y => Rleb (Rabs (297 / 10 - y)) 100)).
  rewrite (within_le (297 / 10) 0), (within_le (297 / 10) 99), (beyond_le (297 / 10) (-99)) by lra. reflexivity.
Qed.
Theorem ransac_inliers_refuted : exists q inliers, ransac (constant_model cloud) 100 8 (map (fun i => [i]) (seq 0 10)) = Ok (q, inliers) /\ (Z.of_nat (length inliers) <= 8)%Z.
Proof.
  destruct cloud_fold as [e F]. exists (297 / 10), (seq 0 7). split; [|cbn; lia]. unfold ransac. rewrite F. rewrite cloud_inliers. reflexivity.
Qed.
Print Assumptions ransac_inliers_refuted.
