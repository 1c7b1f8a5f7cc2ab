(** C51, for parameter vectors of the wrong length: what Cameras.set_cameras (optimize.py:1671-1695) does with entries that are missing or too many. *)
From Verif Require Import Base BaseLemmas XReal ParamsModel ParamsSpec ParamsProofs ParamsProofs2 P_Params.
Open Scope R_scope.

Lemma firstn_skipn_app {A} n k (a b : list A) : (k + n <= length a)%nat -> firstn n (skipn k (a ++ b)) = firstn n (skipn k a).
Proof. intros L. rewrite skipn_app, firstn_app, skipn_length. replace (n - (length a - k))%nat with 0%nat by lia. cbn [firstn]. apply app_nil_r. Qed.
Lemma piece_app s c i a b : (i < length c)%nat -> (s + fold_right plus 0 c <= length a)%nat -> piece (breaks s c) i (a ++ b) = piece (breaks s c) i a.
Proof.
  intros L Q. rewrite !piece_breaks by assumption. apply firstn_skipn_app. pose proof (sum_firstn_S c i L). pose proof (sum_firstn_le c (S i)). lia.
Qed.
(** entries beyond the last parameter are ignored *)
Theorem cameras_set_long : forall m h params extra, consistent m h -> length params = n_params m -> set_cameras m (params ++ extra) h = set_cameras m params h.
Proof.
  intros m h params extra C L. destruct C as (_ & _ & L1 & L2 & _ & _ & F & _).
  assert (PG : forall i, (i < length (m_group_masks m))%nat -> piece (group_breaks m) i (params ++ extra) = piece (group_breaks m) i params).
  { intros i Li. unfold group_breaks. apply piece_app; [now rewrite map_length|]. rewrite L. unfold n_params, total. lia. }
  assert (PC : forall j, (j < length (m_cams m))%nat -> piece (cam_breaks m) j (params ++ extra) = piece (cam_breaks m) j params).
  { intros j Lj. rewrite cam_breaks_eq. apply piece_app; [rewrite map_length; lia|]. rewrite L. unfold n_params, total. lia. }
  assert (SG : forall i, (i < length (m_group_masks m))%nat -> forall idx h, Forall (fun j => (j < length (m_cams m))%nat) idx -> set_group m (params ++ extra) i idx h = set_group m params i idx h).
  { intros i Li. induction idx as [|j idx IH]; intros h0 Fi; [reflexivity|]. inversion_clear Fi as [|? ? Lj Fi']. cbn [set_group]. rewrite PG, PC by assumption.
    destruct (assign m j (nth i (m_group_masks m) []) (piece (group_breaks m) i params) h0) as [h1 [[]|e]]; [|reflexivity]. cbn [andthen].
    destruct (assign m j (nth j (m_cam_masks m) []) (piece (cam_breaks m) j params) h1) as [h2 [[]|e]]; [|reflexivity]. cbn [andthen]. now apply IH. }
  unfold set_cameras. assert (G : forall gs i h, Forall (Forall (fun j => (j < length (m_cams m))%nat)) gs -> (i + length gs <= length (m_group_masks m))%nat -> set_groups m (params ++ extra) i gs h = set_groups m params i gs h).
  { induction gs as [|idx gs IH]; intros i h0 Fg Lg; [reflexivity|]. inversion_clear Fg as [|? ? Fi Fg']. cbn [length] in Lg. cbn [set_groups]. rewrite SG by (lia || assumption).
    destruct (set_group m params i idx h0) as [h1 [[]|e]]; [|reflexivity]. cbn [andthen]. apply IH; [assumption|lia]. }
  apply G; [exact F|lia].
Qed.
Print Assumptions cameras_set_long.

(** C51, refuted: a vector that is too short is not always rejected: if a single entry is left for all parameters of a camera, it is given to each of them *)
Definition short_model := mk_model [0%nat] [no_predictions] [[0%nat]] [ones []] [ones [3; 4; 5]%nat] None [].
Theorem cameras_set_short_refuted : exists m h params h', consistent m h /\ (length params < n_params m)%nat /\ set_cameras m params h = (h', Ok tt) /\
  forall q, (3 <= q < 6)%nat -> nth q (h' 0%nat) 0 = nth 0 params 0.
Proof.
  exists short_model, start, [7]. eexists. split; [|split; [|split; [reflexivity|]]].
  - split; [repeat constructor; cbn; tauto|]. split; [intros; unfold start; now rewrite map_length|]. split; [reflexivity|]. split; [reflexivity|].
    split; [repeat constructor|]. split; [repeat constructor|]. split; [repeat constructor|]. vm_compute. reflexivity.
  - vm_compute. lia.
  - intros q [L U]. do 6 (destruct q as [|q]; [try lia; reflexivity|]). lia.
Qed.
Print Assumptions cameras_set_short_refuted.

(** exactly: set_cameras succeeds iff, for each camera of each group, the entries left for the parameters of the group and of the camera are as many as these, or one *)
Definition left_for (params : list R) (first count : nat) : nat := Nat.min count (length params - first).
Definition enough (params : list R) (first count : nat) : Prop := left_for params first count = count \/ left_for params first count = 1%nat.
Lemma piece_left s c i params : (i < length c)%nat -> length (piece (breaks s c) i params) = left_for params (s + fold_right plus 0 (firstn i c))%nat (nth i c 0%nat).
Proof. intros L. rewrite piece_breaks by exact L. rewrite firstn_length, skipn_length. reflexivity. Qed.
Lemma mask_assign_iff {A} mask (w v : list A) : (length w = count_true mask \/ length w = 1%nat -> exists v', mask_assign mask w v = Ok v') /\
  (~ (length w = count_true mask \/ length w = 1%nat) -> mask_assign mask w v = Err ValueError).
Proof.
  unfold mask_assign. destruct (length w =? count_true mask)%nat eqn:Q; [apply Nat.eqb_eq in Q; split; [eauto|tauto]|]. apply Nat.eqb_neq in Q. destruct w as [|x [|y w]]; cbn [length] in *; split; intros H; try (exfalso; lia); eauto; try reflexivity.
Qed.
Theorem cameras_set_length : forall m h params, consistent m h ->
  let fits := forall i j, member m i j ->
    enough params (total (firstn i (m_group_masks m))) (count_true (nth i (m_group_masks m) [])) /\
    enough params (total (m_group_masks m) + total (firstn j (m_cam_masks m))) (count_true (nth j (m_cam_masks m) [])) in
  (fits -> exists h', set_cameras m params h = (h', Ok tt)) /\ (~ fits -> exists h', set_cameras m params h = (h', Err ValueError)).
Proof.
  intros m h params C fits. destruct C as (_ & _ & L1 & L2 & _ & _ & F & _).
  assert (cn : forall l i, nth i (map count_true l) 0%nat = count_true (nth i l [])) by (intros l i; change 0%nat with (count_true []) at 1; apply map_nth).
  set (ok := fun i j => enough params (total (firstn i (m_group_masks m))) (count_true (nth i (m_group_masks m) [])) /\
    enough params (total (m_group_masks m) + total (firstn j (m_cam_masks m))) (count_true (nth j (m_cam_masks m) []))).
  assert (A1 : forall i j h, (i < length (m_group_masks m))%nat -> (j < length (m_cams m))%nat ->
    (enough params (total (firstn i (m_group_masks m))) (count_true (nth i (m_group_masks m) [])) -> exists h', assign m j (nth i (m_group_masks m) []) (piece (group_breaks m) i params) h = (h', Ok tt)) /\
    (~ enough params (total (firstn i (m_group_masks m))) (count_true (nth i (m_group_masks m) [])) -> exists h', assign m j (nth i (m_group_masks m) []) (piece (group_breaks m) i params) h = (h', Err ValueError))).
  { intros i j h0 Li Lj. unfold assign. rewrite (nth_error_nth' _ 0%nat Lj).
    destruct (mask_assign_iff (nth i (m_group_masks m) []) (piece (group_breaks m) i params) (h0 (nth j (m_cams m) 0%nat))) as [M1 M2].
    assert (E : length (piece (group_breaks m) i params) = left_for params (total (firstn i (m_group_masks m))) (count_true (nth i (m_group_masks m) []))).
    { unfold group_breaks. rewrite piece_left by now rewrite map_length. rewrite cn. unfold total. now rewrite firstn_map. }
    rewrite E in M1, M2. unfold enough. split; intros H; [destruct (M1 H) as [v ->]|rewrite (M2 H)]; eexists; reflexivity. }
  assert (A2 : forall j h, (j < length (m_cams m))%nat ->
    (enough params (total (m_group_masks m) + total (firstn j (m_cam_masks m))) (count_true (nth j (m_cam_masks m) [])) -> exists h', assign m j (nth j (m_cam_masks m) []) (piece (cam_breaks m) j params) h = (h', Ok tt)) /\
    (~ enough params (total (m_group_masks m) + total (firstn j (m_cam_masks m))) (count_true (nth j (m_cam_masks m) [])) -> exists h', assign m j (nth j (m_cam_masks m) []) (piece (cam_breaks m) j params) h = (h', Err ValueError))).
  { intros j h0 Lj. unfold assign. rewrite (nth_error_nth' _ 0%nat Lj).
    destruct (mask_assign_iff (nth j (m_cam_masks m) []) (piece (cam_breaks m) j params) (h0 (nth j (m_cams m) 0%nat))) as [M1 M2].
    assert (E : length (piece (cam_breaks m) j params) = left_for params (total (m_group_masks m) + total (firstn j (m_cam_masks m))) (count_true (nth j (m_cam_masks m) []))).
    { rewrite cam_breaks_eq. rewrite piece_left by (rewrite map_length; lia). rewrite cn. unfold total. now rewrite firstn_map. }
    rewrite E in M1, M2. unfold enough. split; intros H; [destruct (M1 H) as [v ->]|rewrite (M2 H)]; eexists; reflexivity. }
  assert (SG : forall i, (i < length (m_group_masks m))%nat -> forall idx h, Forall (fun j => (j < length (m_cams m))%nat) idx ->
    ((forall j, In j idx -> ok i j) -> exists h', set_group m params i idx h = (h', Ok tt)) /\ (~ (forall j, In j idx -> ok i j) -> exists h', set_group m params i idx h = (h', Err ValueError))).
  { intros i Li. induction idx as [|j idx IH]; intros h0 Fi.
    - split; [intros _; eexists; reflexivity|]. intros H. exfalso. apply H. intros j [].
    - inversion_clear Fi as [|? ? Lj Fi']. cbn [set_group]. destruct (A1 i j h0 Li Lj) as [B1 B2].
      assert (D1 : forall P : Prop, P \/ ~ P) by apply Classical_Prop.classic.
      destruct (D1 (enough params (total (firstn i (m_group_masks m))) (count_true (nth i (m_group_masks m) [])))) as [K1|K1].
      + destruct (B1 K1) as [h1 ->]. cbn [andthen]. destruct (A2 j h1 Lj) as [B3 B4].
        destruct (D1 (enough params (total (m_group_masks m) + total (firstn j (m_cam_masks m))) (count_true (nth j (m_cam_masks m) [])))) as [K2|K2].
        * destruct (B3 K2) as [h2 ->]. cbn [andthen]. destruct (IH h2 Fi') as [I1 I2]. split; intros H; [apply I1; intros k I; apply H; now right|]. apply I2. intros Z. apply H. intros k [<-|I]; [split; assumption|now apply Z].
        * destruct (B4 K2) as [h2 ->]. cbn [andthen]. split; [|eauto]. intros H. destruct (H j ltac:(now left)) as [_ Z]. contradiction.
      + destruct (B2 K1) as [h1 ->]. cbn [andthen]. split; [|eauto]. intros H. destruct (H j ltac:(now left)) as [Z _]. contradiction. }
  assert (G : forall gs i h, Forall (Forall (fun j => (j < length (m_cams m))%nat)) gs -> (i + length gs <= length (m_group_masks m))%nat ->
    ((forall k idx j, nth_error gs k = Some idx -> In j idx -> ok (i + k)%nat j) -> exists h', set_groups m params i gs h = (h', Ok tt)) /\
    (~ (forall k idx j, nth_error gs k = Some idx -> In j idx -> ok (i + k)%nat j) -> exists h', set_groups m params i gs h = (h', Err ValueError))).
  { induction gs as [|idx gs IH]; intros i h0 Fg Lg.
    - split; [intros _; eexists; reflexivity|]. intros H. exfalso. apply H. intros [|k] idx j K; discriminate.
    - inversion_clear Fg as [|? ? Fi Fg']. cbn [length] in Lg. cbn [set_groups]. destruct (SG i ltac:(lia) idx h0 Fi) as [B1 B2].
      assert (D1 : (forall j, In j idx -> ok i j) \/ ~ (forall j, In j idx -> ok i j)) by apply Classical_Prop.classic. destruct D1 as [K|K].
      + destruct (B1 K) as [h1 ->]. cbn [andthen]. destruct (IH (S i) h1 Fg' ltac:(lia)) as [I1 I2]. split; intros H.
        * apply I1. intros k idx' j N I. specialize (H (S k) idx' j N I). now rewrite Nat.add_succ_r in H.
        * apply I2. intros Z. apply H. intros [|k] idx' j N I; [cbn in N; injection N as <-; rewrite Nat.add_0_r; now apply K|]. rewrite Nat.add_succ_r. now apply (Z k idx').
      + destruct (B2 K) as [h1 ->]. cbn [andthen]. split; [|eauto]. intros H. exfalso. apply K. intros j I. specialize (H 0%nat idx j eq_refl I). now rewrite Nat.add_0_r in H. }
  destruct (G (m_group_indices m) 0%nat h F ltac:(lia)) as [G1 G2]. unfold set_cameras.
  split; intros H; [apply G1|apply G2].
  - intros k idx j N I. apply H. exists idx. auto.
  - intros Z. apply H. intros i j (idx & N & I). apply (Z i idx j N I).
Qed.
Print Assumptions cameras_set_length.
