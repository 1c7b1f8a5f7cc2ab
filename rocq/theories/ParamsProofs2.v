(** Proofs: reading parameters back, restoring cameras, sparsity. *)
From Verif Require Import Base BaseLemmas XReal ParamsModel ParamsSpec ParamsProofs.
Open Scope R_scope.

(** ** Concatenated pieces *)
Lemma nth_concat {A} (ls : list (list A)) i r d : (i < length ls)%nat -> (r < length (nth i ls []))%nat ->
  nth (fold_right plus 0%nat (map (@length A) (firstn i ls)) + r) (concat ls) d = nth r (nth i ls []) d.
Proof.
  revert i. induction ls as [|l ls IH]; intros [|i] L Q; cbn in L; try lia.
  - cbn in Q |- *. now apply app_nth1.
  - cbn [firstn map fold_right concat nth] in *. rewrite app_nth2 by lia. replace (length l + fold_right plus 0 (map (length (A:=A)) (firstn i ls)) + r - length l)%nat
      with (fold_right plus 0 (map (length (A:=A)) (firstn i ls)) + r)%nat by lia. apply IH; [lia|exact Q].
Qed.
Lemma length_concat_sum {A} (ls : list (list A)) : length (concat ls) = fold_right plus 0%nat (map (@length A) ls).
Proof. induction ls as [|l ls IH]; [reflexivity|]. cbn. now rewrite app_length, IH. Qed.
Lemma map2_nth {A B C} (f : A -> B -> C) l l' i a b c : length l = length l' -> (i < length l)%nat -> nth i (map2 f l l') c = f (nth i l a) (nth i l' b).
Proof. revert l' i. induction l as [|x l IH]; intros [|y l'] [|i] L Q; cbn in L, Q; try lia; [reflexivity|]. cbn. apply IH; lia. Qed.
Lemma map2_len {A B C} (f : A -> B -> C) l l' : length l = length l' -> length (map2 f l l') = length l.
Proof. revert l'. induction l as [|x l IH]; intros [|y l'] L; cbn in L; try lia; [reflexivity|]. cbn. now rewrite IH by lia. Qed.

(** Every position of the parameter vector is one parameter of one mask. *)
Lemma rank_surj mask r : (r < count_true mask)%nat -> exists q, (q < length mask)%nat /\ on mask q = true /\ rank mask q = r.
Proof.
  revert r. induction mask as [|b mask IH]; intros r L; [cbn in L; lia|]. rewrite count_cons in L. destruct b.
  - destruct r as [|r]; [exists 0%nat; cbn; repeat split; lia|]. destruct (IH r) as (q & Q1 & Q2 & Q3); [lia|]. exists (S q). cbn [length]. split; [lia|]. split; [exact Q2|].
    unfold rank in *. cbn [firstn]. rewrite count_cons. lia.
  - destruct (IH r) as (q & Q1 & Q2 & Q3); [lia|]. exists (S q). cbn [length]. split; [lia|]. split; [exact Q2|]. unfold rank in *. cbn [firstn]. rewrite count_cons. lia.
Qed.
Lemma total_cons k ms : total (k :: ms) = (count_true k + total ms)%nat. Proof. reflexivity. Qed.
Lemma total_surj ms n : (n < total ms)%nat -> exists i q, (i < length ms)%nat /\ on (nth i ms []) q = true /\ (q < length (nth i ms []))%nat /\ n = (total (firstn i ms) + rank (nth i ms []) q)%nat.
Proof.
  revert n. induction ms as [|k ms IH]; intros n L; [cbn in L; lia|]. rewrite total_cons in L. destruct (Nat.lt_ge_cases n (count_true k)) as [H|H].
  - destruct (rank_surj k n H) as (q & Q1 & Q2 & Q3). exists 0%nat, q. cbn [length nth firstn]. split; [lia|]. split; [exact Q2|]. split; [exact Q1|]. cbn. lia.
  - destruct (IH (n - count_true k)%nat) as (i & q & Q1 & Q2 & Q3 & Q4); [lia|]. exists (S i), q. cbn [length nth firstn]. rewrite total_cons. split; [lia|]. split; [exact Q2|]. split; [exact Q3|]. lia.
Qed.
Lemma param_position m h n : consistent m h -> (n < n_params m)%nat ->
  (exists i q, (i < length (m_group_masks m))%nat /\ (q < 20)%nat /\ group_on m i q = true /\ n = group_pos m i q) \/
  (exists j q, (j < length (m_cams m))%nat /\ (q < 20)%nat /\ cam_on m j q = true /\ n = cam_pos m j q).
Proof.
  intros Cm L. destruct Cm as (_ & _ & L1 & L2 & F1 & F2 & _). unfold n_params in L. destruct (Nat.lt_ge_cases n (total (m_group_masks m))) as [H|H].
  - left. destruct (total_surj _ _ H) as (i & q & Q1 & Q2 & Q3 & Q4). exists i, q. rewrite (mask20 _ _ F2 Q1) in Q3. auto.
  - right. destruct (total_surj (m_cam_masks m) (n - total (m_group_masks m))) as (j & q & Q1 & Q2 & Q3 & Q4); [lia|]. exists j, q. rewrite (mask20 _ _ F1 Q1) in Q3.
    split; [lia|]. split; [exact Q3|]. split; [exact Q2|]. unfold cam_pos. lia.
Qed.

(** ** Initial parameters *)
Lemma mean_columns_length rows n : length (mean_columns rows n) = n.
Proof. unfold mean_columns. now rewrite map_length, seq_length. Qed.
Lemma map_seq_nth (f : nat -> R) n s q : (q < n)%nat -> nth q (map f (seq s n)) 0 = f (s + q)%nat.
Proof.
  revert s q. induction n as [|n IH]; intros s [|q] L; try lia; cbn [seq map nth].
  - now rewrite Nat.add_0_r.
  - rewrite IH by lia. f_equal. lia.
Qed.
Lemma mean_columns_nth rows n q : (q < n)%nat -> nth q (mean_columns rows n) 0 = sumR (map (fun r => nth q r 0) rows) / INR (length rows).
Proof. intros L. unfold mean_columns. rewrite map_seq_nth by assumption. reflexivity. Qed.

Section Initial.
Variable m : model. Variable h0 : heap. Hypothesis Cm : consistent m h0.
Variable h : heap. Hypothesis W : wide m h.

Lemma group_block i : (i < length (m_group_masks m))%nat ->
  nth i (map2 (group_values m h) (m_group_masks m) (m_group_indices m)) [] = group_values m h (nth i (m_group_masks m) []) (nth i (m_group_indices m) []).
Proof. intros L. destruct Cm as (_ & _ & _ & L2 & _). apply map2_nth; auto. Qed.
Lemma cam_block j : (j < length (m_cams m))%nat ->
  nth j (map2 (fun mask o => mget mask (h o)) (m_cam_masks m) (m_cams m)) [] = mget (nth j (m_cam_masks m) []) (h (nth j (m_cams m) 0%nat)).
Proof. intros L. destruct Cm as (_ & _ & L1 & _). apply (map2_nth (fun mask o => mget mask (h o))); [auto|lia]. Qed.
Lemma group_lengths : map (@length R) (map2 (group_values m h) (m_group_masks m) (m_group_indices m)) = map count_true (m_group_masks m).
Proof.
  destruct Cm as (_ & _ & _ & L2 & _). revert L2. generalize (m_group_indices m) as gi. generalize (m_group_masks m) as gm. induction gm as [|k gm IH]; intros [|x gi] L; cbn in L; try lia; [reflexivity|].
  cbn. rewrite IH by lia. f_equal. apply mean_columns_length.
Qed.
Lemma cam_lengths : map (@length R) (map2 (fun mask o => mget mask (h o)) (m_cam_masks m) (m_cams m)) = map count_true (m_cam_masks m).
Proof.
  destruct Cm as (_ & _ & L1 & _ & F & _). revert L1 F W. unfold wide. generalize (m_cams m) as cs. generalize (m_cam_masks m) as cm. induction cm as [|k cm IH]; intros [|o cs] L F V; cbn in L; try lia; [reflexivity|].
  cbn. inversion F; subst. rewrite IH; [|lia|assumption|intros o' I; apply V; now right]. f_equal. apply mget_length. rewrite (V o) by now left. assumption.
Qed.
Lemma initial_length : length (initial_params m h) = n_params m.
Proof. unfold initial_params. rewrite app_length, !length_concat_sum, group_lengths, cam_lengths. reflexivity. Qed.
Lemma firstn_map2_len {A B} (f : A -> B -> list R) l l' i : firstn i (map (@length R) (map2 f l l')) = map (@length R) (firstn i (map2 f l l')).
Proof. now rewrite firstn_map. Qed.
Lemma initial_cam j q : (j < length (m_cams m))%nat -> cam_on m j q = true -> nth (cam_pos m j q) (initial_params m h) 0 = nth q (h (nth j (m_cams m) 0%nat)) 0.
Proof.
  intros Lj O. pose proof Cm as (_ & _ & L1 & _ & F1 & _). unfold initial_params, cam_pos.
  rewrite app_nth2 by (rewrite length_concat_sum, group_lengths; unfold total; lia). rewrite length_concat_sum, group_lengths.
  replace (total (m_group_masks m) + total (firstn j (m_cam_masks m)) + rank (nth j (m_cam_masks m) []) q - fold_right plus 0 (map count_true (m_group_masks m)))%nat
    with (fold_right plus 0 (map (@length R) (firstn j (map2 (fun mask o => mget mask (h o)) (m_cam_masks m) (m_cams m)))) + rank (nth j (m_cam_masks m) []) q)%nat.
  2:{ rewrite <- firstn_map2_len, cam_lengths. unfold total. rewrite firstn_map. lia. }
  assert (Lb : length (nth j (m_cam_masks m) []) = length (h (nth j (m_cams m) 0%nat))).
  { rewrite W by (apply nth_In; lia). apply mask20; [assumption|lia]. }
  rewrite nth_concat.
  - rewrite cam_block by assumption. now apply mget_nth.
  - rewrite map2_len; lia.
  - rewrite cam_block by assumption. rewrite mget_length by assumption. now apply rank_lt.
Qed.
Lemma sumR_const {A} (f : A -> R) l c : (forall x, In x l -> f x = c) -> sumR (map f l) = INR (length l) * c.
Proof. induction l as [|x l IH]; intros H; cbn [map sumR fold_right]; [cbn; ring|]. change (fold_right Rplus 0 (map f l)) with (sumR (map f l)). rewrite IH by (intros; apply H; now right). rewrite (H x) by now left. cbn [length]. rewrite S_INR. ring. Qed.
Lemma initial_group i q : (i < length (m_group_masks m))%nat -> group_on m i q = true ->
  nth (group_pos m i q) (initial_params m h) 0 =
  sumR (map (fun j => nth q (h (nth j (m_cams m) 0%nat)) 0) (nth i (m_group_indices m) [])) / INR (length (nth i (m_group_indices m) [])).
Proof.
  intros Li O. pose proof Cm as (_ & _ & _ & L2 & _ & F2 & F3 & _). unfold initial_params, group_pos.
  assert (R1 : (rank (nth i (m_group_masks m) []) q < count_true (nth i (m_group_masks m) []))%nat) by now apply rank_lt.
  assert (E0 : total (firstn i (m_group_masks m)) = fold_right plus 0%nat (map (@length R) (firstn i (map2 (group_values m h) (m_group_masks m) (m_group_indices m))))).
  { rewrite <- firstn_map2_len, group_lengths. unfold total. now rewrite firstn_map. }
  rewrite app_nth1.
  - rewrite E0. rewrite nth_concat; [|rewrite map2_len; lia|rewrite group_block by assumption; unfold group_values; rewrite mean_columns_length; assumption].
    rewrite group_block by assumption. unfold group_values. rewrite mean_columns_nth by assumption. rewrite !map_length. f_equal. f_equal. rewrite map_map. apply map_ext_in.
    intros j Ij. apply mget_nth; [|exact O]. rewrite (mask20 _ _ F2 Li). symmetry. apply W, nth_In.
    rewrite Forall_forall in F3. assert (I : In (nth i (m_group_indices m) []) (m_group_indices m)) by (apply nth_In; lia). specialize (F3 _ I). rewrite Forall_forall in F3. now apply F3.
  - rewrite length_concat_sum, group_lengths. pose proof (sum_firstn_S (map count_true (m_group_masks m)) i) as Q. rewrite map_length in Q. specialize (Q Li).
    pose proof (sum_firstn_le (map count_true (m_group_masks m)) (S i)) as Q2. unfold total. rewrite <- firstn_map.
    replace (nth i (map count_true (m_group_masks m)) 0%nat) with (count_true (nth i (m_group_masks m) [])) in Q; [lia|]. change 0%nat with (count_true []). now rewrite map_nth.
Qed.
End Initial.

Lemma member_lt m h i j : consistent m h -> member m i j -> (i < length (m_group_masks m))%nat /\ (j < length (m_cams m))%nat /\ In j (nth i (m_group_indices m) []).
Proof.
  intros (_ & _ & _ & L2 & _ & _ & F & _) (idx & E & I). rewrite Forall_forall in F. split; [|split].
  - rewrite L2. apply nth_error_Some. congruence.
  - apply nth_error_In in E. specialize (F _ E). rewrite Forall_forall in F. now apply F.
  - now rewrite (nth_error_nth _ _ _ E).
Qed.
Lemma member_nth m i j : (i < length (m_group_indices m))%nat -> In j (nth i (m_group_indices m) []) -> member m i j.
Proof. intros L I. exists (nth i (m_group_indices m) []). split; [now apply nth_error_nth'|assumption]. Qed.

(** ** Restoring *)
Lemma put_vectors_other cams vs h o : ~ In o cams -> put_vectors cams vs h o = h o.
Proof.
  revert vs h. induction cams as [|c cams IH]; intros [|v vs] h N; try reflexivity. cbn. rewrite IH by (intros I; apply N; now right). unfold hset.
  destruct (o =? c)%nat eqn:E; [|reflexivity]. apply Nat.eqb_eq in E. subst. exfalso. apply N. now left.
Qed.
Lemma put_vectors_map cams g h o : NoDup cams -> In o cams -> put_vectors cams (map g cams) h o = g o.
Proof.
  intros N. revert h. induction N as [|c cams NI N IH]; intros h I; [destruct I|]. cbn. destruct (in_dec Nat.eq_dec o cams) as [I'|N'].
  - now apply IH.
  - destruct I as [->|I]; [|contradiction]. rewrite put_vectors_other by assumption. unfold hset. now rewrite Nat.eqb_refl.
Qed.

(** ** Sparsity *)
Lemma find_index_some o l : In o l -> exists j, find_index o l = Some j /\ (j < length l)%nat /\ nth j l 0%nat = o.
Proof.
  unfold find_index. intros I.
  assert (K : forall l i, In o l -> exists j, (fix go (i : nat) (l : list nat) := match l with [] => None | x :: r => if (x =? o)%nat then Some i else go (S i) r end) i l = Some (i + j)%nat /\ (j < length l)%nat /\ nth j l 0%nat = o).
  { clear. induction l as [|x l IH]; intros i I; [destruct I|]. destruct (x =? o)%nat eqn:E.
    - apply Nat.eqb_eq in E. subst. exists 0%nat. rewrite Nat.add_0_r. cbn. repeat split. lia.
    - destruct I as [->|I]; [rewrite Nat.eqb_refl in E; discriminate|]. destruct (IH (S i) I) as (j & E1 & E2 & E3). exists (S j). rewrite E1. cbn. repeat split; [f_equal; lia|lia|exact E3]. }
  destruct (K l 0%nat I) as (j & E). now exists j.
Qed.
Lemma in_slice_spec b i col : in_slice b i col = true <-> (nth i b 0 <= col < nth (S i) b 0)%nat.
Proof. unfold in_slice. rewrite andb_true_iff, Nat.leb_le, Nat.ltb_lt. tauto. Qed.
Lemma cam_pos_slice m h j q : consistent m h -> (j < length (m_cams m))%nat -> cam_on m j q = true -> in_slice (cam_breaks m) j (cam_pos m j q) = true.
Proof.
  intros (_ & _ & L1 & _) Lj O. rewrite in_slice_spec, cam_breaks_eq. rewrite !breaks_nth by (rewrite map_length; lia).
  rewrite sum_firstn_S by (rewrite map_length; lia). unfold cam_pos, total. rewrite firstn_map. pose proof (rank_lt _ _ O).
  replace (nth j (map count_true (m_cam_masks m)) 0%nat) with (count_true (nth j (m_cam_masks m) [])); [lia|]. change 0%nat with (count_true []). now rewrite map_nth.
Qed.
Lemma group_pos_slice m i q : (i < length (m_group_masks m))%nat -> group_on m i q = true -> in_slice (group_breaks m) i (group_pos m i q) = true.
Proof.
  intros Li O. rewrite in_slice_spec. unfold group_breaks. rewrite !breaks_nth by (rewrite map_length; lia).
  rewrite sum_firstn_S by (rewrite map_length; lia). unfold group_pos, total. rewrite firstn_map. pose proof (rank_lt _ _ O).
  replace (nth i (map count_true (m_group_masks m)) 0%nat) with (count_true (nth i (m_group_masks m) [])); [lia|]. change 0%nat with (count_true []). now rewrite map_nth.
Qed.
(** the cameras of a control are the same under parameter vectors that agree on the control's columns *)
Lemma sparse_same m h p p' h1 h2 c o : consistent m h -> length p = n_params m -> length p' = n_params m ->
  set_cameras m p h = (h1, Ok tt) -> set_cameras m p' h = (h2, Ok tt) ->
  (forall col, sparse_control m c col = true -> nth col p 0 = nth col p' 0) -> In o (ct_cams c) -> h1 o = h2 o.
Proof.
  intros Cm Lp Lp' E1 E2 A Io.
  assert (W : wide m h) by (destruct Cm as (_ & Q & _); exact Q).
  destruct (set_cameras_spec m h Cm p Lp h W) as (h1' & Q1 & V1 & U1 & O1 & W1). rewrite E1 in Q1. injection Q1 as <-.
  destruct (set_cameras_spec m h Cm p' Lp' h W) as (h2' & Q2 & V2 & U2 & O2 & W2). rewrite E2 in Q2. injection Q2 as <-.
  destruct (in_dec Nat.eq_dec o (m_cams m)) as [I|N]; [|now rewrite O1, O2].
  destruct (find_index_some o _ I) as (j & Fj & Lj & <-).
  assert (Ac : forall q, cam_on m j q = true -> nth (cam_pos m j q) p 0 = nth (cam_pos m j q) p' 0).
  { intros q O. apply A. apply existsb_exists. exists (nth j (m_cams m) 0%nat). split; [exact Io|]. rewrite Fj. rewrite (cam_pos_slice m h) by assumption. reflexivity. }
  assert (Ag : forall i q, member m i j -> group_on m i q = true -> nth (group_pos m i q) p 0 = nth (group_pos m i q) p' 0).
  { intros i q M O. apply A. apply existsb_exists. exists (nth j (m_cams m) 0%nat). split; [exact Io|]. rewrite Fj. apply orb_true_iff. right.
    destruct (member_lt m h i j Cm M) as (Li & _ & Ij). apply existsb_exists. exists i. pose proof Cm as (_ & _ & _ & L2 & _). split; [apply in_seq; lia|].
    rewrite group_pos_slice by assumption. rewrite andb_true_r. apply existsb_exists. exists j. split; [exact Ij|apply Nat.eqb_refl]. }
  assert (D : grouped m j \/ ~ grouped m j) by apply Classical_Prop.classic. destruct D as [G|G]; [|now rewrite U1, U2].
  apply nth_ext with (d := 0) (d' := 0); [rewrite W1, W2; auto|]. intros q Lq. rewrite W1 in Lq by assumption.
  destruct (V1 j q Lj Lq G) as (A1 & A2 & A3), (V2 j q Lj Lq G) as (B1 & B2 & B3). destruct (cam_on m j q) eqn:O.
  - rewrite A1, B1 by reflexivity. now apply Ac.
  - assert (D : (exists i, member m i j /\ group_on m i q = true) \/ ~ exists i, member m i j /\ group_on m i q = true) by apply Classical_Prop.classic.
    destruct D as [(i & M & Gi)|NE].
    + rewrite (A2 i), (B2 i) by auto. now apply Ag.
    + assert (Z : forall i, member m i j -> group_on m i q = false) by (intros i M; destruct (group_on m i q) eqn:Q; [exfalso; apply NE; eauto|reflexivity]).
      now rewrite A3, B3.
Qed.
