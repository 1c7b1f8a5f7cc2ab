(** Facts about Base.v used by the proofs (no model content). *)
From Verif Require Import Base.
From Coq Require Import Permutation Sorted.
Open Scope R_scope.

Lemma Rltb_true x y : Rltb x y = true <-> x < y.
Proof. unfold Rltb; destruct (Rlt_dec x y); split; intros; try discriminate; auto; contradiction. Qed.
Lemma Rltb_false x y : Rltb x y = false <-> y <= x.
Proof. unfold Rltb; destruct (Rlt_dec x y); split; intros; try discriminate; auto; lra. Qed.
Lemma Rleb_true x y : Rleb x y = true <-> x <= y.
Proof. unfold Rleb; destruct (Rle_dec x y); split; intros; try discriminate; auto; contradiction. Qed.
Lemma Rleb_false x y : Rleb x y = false <-> y < x.
Proof. unfold Rleb; destruct (Rle_dec x y); split; intros; try discriminate; auto; lra. Qed.
Lemma Reqb_true x y : Reqb x y = true <-> x = y.
Proof. unfold Reqb; destruct (Req_EM_T x y); split; intros; try discriminate; auto; contradiction. Qed.
Lemma Reqb_false x y : Reqb x y = false <-> x <> y.
Proof. unfold Reqb; destruct (Req_EM_T x y); split; intros; try discriminate; auto; contradiction. Qed.

Lemma Rltb_spec x y : reflect (x < y) (Rltb x y).
Proof. unfold Rltb; destruct (Rlt_dec x y); constructor; auto. Qed.
Lemma Rleb_spec x y : reflect (x <= y) (Rleb x y).
Proof. unfold Rleb; destruct (Rle_dec x y); constructor; auto. Qed.
Lemma Reqb_spec x y : reflect (x = y) (Reqb x y).
Proof. unfold Reqb; destruct (Req_EM_T x y); constructor; auto. Qed.

(** Floor *)
Lemma Rfloor_lb x : IZR (Rfloor x) <= x.
Proof. unfold Rfloor; destruct (archimed x); rewrite minus_IZR; lra. Qed.
Lemma Rfloor_ub x : x < IZR (Rfloor x) + 1.
Proof. unfold Rfloor; destruct (archimed x); rewrite minus_IZR; lra. Qed.
Lemma Rfloor_imp n x : IZR n <= x < IZR n + 1 -> Rfloor x = n.
Proof.
  intros [H1 H2]. pose proof (Rfloor_lb x); pose proof (Rfloor_ub x).
  assert (IZR (Rfloor x) < IZR (n + 1)) by (rewrite plus_IZR; lra).
  assert (IZR n < IZR (Rfloor x + 1)) by (rewrite plus_IZR; lra).
  apply lt_IZR in H3; apply lt_IZR in H4; lia.
Qed.
Lemma Rfloor_IZR n : Rfloor (IZR n) = n.
Proof. apply Rfloor_imp; lra. Qed.
Lemma Rfloor_le n x : IZR n <= x -> (n <= Rfloor x)%Z.
Proof.
  intros H. pose proof (Rfloor_ub x).
  assert (IZR n < IZR (Rfloor x + 1)) by (rewrite plus_IZR; lra).
  apply lt_IZR in H1; lia.
Qed.
Lemma Rfloor_lt n x : x < IZR n -> (Rfloor x < n)%Z.
Proof.
  intros H. pose proof (Rfloor_lb x).
  apply lt_IZR. lra.
Qed.
Lemma Rfloor_mono x y : x <= y -> (Rfloor x <= Rfloor y)%Z.
Proof. intros H. apply Rfloor_le. pose proof (Rfloor_lb x). lra. Qed.
Lemma Rfloor_plus_IZR x n : Rfloor (x + IZR n) = (Rfloor x + n)%Z.
Proof.
  apply Rfloor_imp. rewrite plus_IZR. pose proof (Rfloor_lb x); pose proof (Rfloor_ub x). lra.
Qed.

Lemma Rceil_ub x : x <= IZR (Rceil x).
Proof. unfold Rceil; rewrite opp_IZR; pose proof (Rfloor_lb (-x)); lra. Qed.
Lemma Rceil_lb x : IZR (Rceil x) < x + 1.
Proof. unfold Rceil; rewrite opp_IZR; pose proof (Rfloor_ub (-x)); lra. Qed.
Lemma Rceil_imp n x : IZR n - 1 < x <= IZR n -> Rceil x = n.
Proof. intros H. unfold Rceil. rewrite (Rfloor_imp (-n)); [lia|]. rewrite opp_IZR. lra. Qed.
Lemma Rceil_IZR n : Rceil (IZR n) = n.
Proof. apply Rceil_imp; lra. Qed.

(** Rounding *)
Lemma Rabs_le_inv' x y : Rabs x <= y -> - y <= x <= y.
Proof. intros H. unfold Rabs in H. destruct (Rcase_abs x); lra. Qed.
Lemma Rround_near x : Rabs (x - IZR (Rround x)) <= / 2.
Proof.
  unfold Rround. pose proof (Rfloor_lb x); pose proof (Rfloor_ub x).
  destruct (Rltb_spec (x - IZR (Rfloor x)) (/2)); [apply Rabs_le; lra|].
  destruct (Rltb_spec (/2) (x - IZR (Rfloor x))); [rewrite plus_IZR; apply Rabs_le; lra|].
  destruct (Z.even (Rfloor x)); [|rewrite plus_IZR]; apply Rabs_le; lra.
Qed.
Lemma Rround_imp n x : Rabs (x - IZR n) < / 2 -> Rround x = n.
Proof.
  intros H. apply Rabs_def2 in H. pose proof (Rround_near x) as Hn.
  apply Rabs_le_inv' in Hn.
  assert (IZR (Rround x) < IZR (n + 1)) by (rewrite plus_IZR; lra).
  assert (IZR n < IZR (Rround x + 1)) by (rewrite plus_IZR; lra).
  apply lt_IZR in H0; apply lt_IZR in H1; lia.
Qed.
Lemma Rround_IZR n : Rround (IZR n) = n.
Proof. apply Rround_imp. rewrite Rminus_diag_eq, Rabs_R0; auto; lra. Qed.
Lemma Rround_nearest x n : Rabs (x - IZR (Rround x)) <= Rabs (x - IZR n).
Proof.
  destruct (Z.eq_dec (Rround x) n) as [->|Hne]; [lra|].
  pose proof (Rround_near x) as H.
  assert (1 <= Rabs (IZR (Rround x) - IZR n)).
  { rewrite <- minus_IZR. rewrite <- abs_IZR. apply IZR_le. lia. }
  assert (Rabs (IZR (Rround x) - IZR n) <= Rabs (x - IZR (Rround x)) + Rabs (x - IZR n)).
  { replace (IZR (Rround x) - IZR n) with ((x - IZR n) - (x - IZR (Rround x))) by ring.
    unfold Rminus at 1. eapply Rle_trans; [apply Rabs_triang|]. rewrite Rabs_Ropp. lra. }
  lra.
Qed.

Lemma Rdiv_nonneg a b : 0 <= a -> 0 < b -> 0 <= a / b.
Proof. intros. apply Rmult_le_pos; auto. apply Rlt_le, Rinv_0_lt_compat; auto. Qed.

(** Zrange *)
Lemma Zrange_length n : length (Zrange n) = Z.to_nat n.
Proof. unfold Zrange; rewrite map_length, seq_length; auto. Qed.
Lemma in_Zrange n k : In k (Zrange n) <-> (0 <= k < n)%Z.
Proof.
  unfold Zrange; rewrite in_map_iff; split.
  - intros [m [<- Hm]]. apply in_seq in Hm. lia.
  - intros H. exists (Z.to_nat k). split; [lia|]. apply in_seq. lia.
Qed.
Lemma nth_error_Zrange n i : (i < Z.to_nat n)%nat -> nth_error (Zrange n) i = Some (Z.of_nat i).
Proof.
  intros H. unfold Zrange. rewrite nth_error_map.
  rewrite (nth_error_nth' (seq 0 (Z.to_nat n)) 0%nat); [|rewrite seq_length; auto].
  rewrite seq_nth by auto. reflexivity.
Qed.
Lemma Zrange_sorted n : StronglySorted Z.lt (Zrange n).
Proof.
  unfold Zrange. generalize (Z.to_nat n). intros m. generalize 0%nat.
  induction m; intros s; simpl; constructor; auto.
  apply Forall_forall. intros z Hz. apply in_map_iff in Hz as [k [<- Hk]]. apply in_seq in Hk. lia.
Qed.

(** set_nth *)
Lemma set_nth_length {A} n (v : A) l : length (set_nth n v l) = length l.
Proof. revert n; induction l; destruct n; simpl; auto. Qed.
Lemma nth_error_set_nth_eq {A} n (v : A) l : (n < length l)%nat -> nth_error (set_nth n v l) n = Some v.
Proof. revert n; induction l; destruct n; simpl; intros; try lia; auto. apply IHl; lia. Qed.
Lemma nth_error_set_nth_neq {A} n m (v : A) l : n <> m -> nth_error (set_nth n v l) m = nth_error l m.
Proof. revert n m; induction l; destruct n, m; simpl; intros; auto; try congruence. Qed.

(** py_get *)
Lemma py_get_nonneg {A} (l : list A) i : (0 <= i < Z.of_nat (length l))%Z ->
  exists a, nth_error l (Z.to_nat i) = Some a /\ py_get l i = Ok a.
Proof.
  intros H. destruct (nth_error l (Z.to_nat i)) as [a|] eqn:E.
  - exists a; split; auto. unfold py_get, py_index; simpl.
    destruct (i <? - Z.of_nat (length l))%Z eqn:E1; [lia|].
    destruct (i <? 0)%Z eqn:E2; [lia|].
    destruct (i <? Z.of_nat (length l))%Z eqn:E3; [|lia]. simpl. rewrite E. reflexivity.
  - apply nth_error_None in E. lia.
Qed.

(** map2 *)
Lemma map2_length {A B C} (f : A -> B -> C) l m : length (map2 f l m) = Nat.min (length l) (length m).
Proof. revert m; induction l; destruct m; simpl; auto. Qed.
Lemma nth_error_map2 {A B C} (f : A -> B -> C) l m i :
  nth_error (map2 f l m) i =
  match nth_error l i, nth_error m i with Some a, Some b => Some (f a b) | _, _ => None end.
Proof.
  revert m i; induction l as [|a l IH]; intros m i; simpl.
  - destruct i; reflexivity.
  - destruct m as [|b m], i as [|i]; simpl; auto. destruct (nth_error l i); reflexivity.
Qed.

Lemma sumR_app l m : sumR (l ++ m) = sumR l + sumR m.
Proof. induction l; simpl; lra. Qed.

Lemma mapM_ok_length {A B} (f : A -> result B) l l' : mapM f l = Ok l' -> length l' = length l.
Proof.
  revert l'; induction l as [|x l IH]; simpl; intros l' H.
  - injection H as <-; reflexivity.
  - destruct (f x) as [y|e]; simpl in H; [|discriminate].
    destruct (mapM f l) as [ys|e]; simpl in H; [|discriminate].
    injection H as <-. simpl. f_equal. apply IH. reflexivity.
Qed.
Lemma mapM_ok_nth {A B} (f : A -> result B) l l' : mapM f l = Ok l' ->
  forall i x, nth_error l i = Some x -> exists y, f x = Ok y /\ nth_error l' i = Some y.
Proof.
  revert l'; induction l as [|a l IH]; simpl; intros l' H i x Hi.
  - destruct i; discriminate.
  - destruct (f a) as [y|e] eqn:Ea; simpl in H; [|discriminate].
    destruct (mapM f l) as [ys|e] eqn:El; simpl in H; [|discriminate].
    injection H as <-. destruct i as [|i]; simpl in *.
    + injection Hi as <-. eauto.
    + eapply IH; eauto.
Qed.
Lemma mapM_all_ok {A B} (f : A -> result B) (g : A -> B) l :
  (forall x, In x l -> f x = Ok (g x)) -> mapM f l = Ok (map g l).
Proof.
  induction l as [|a l IH]; simpl; intros H; auto.
  rewrite H by auto. simpl. rewrite IH by auto. reflexivity.
Qed.
