(** Proofs about masks and set_cameras. *)
From Verif Require Import Base BaseLemmas XReal ParamsModel ParamsSpec.
Open Scope R_scope.

Lemma count_cons b m : count_true (b :: m) = ((if b then 1 else 0) + count_true m)%nat.
Proof. unfold count_true. cbn. destruct b; reflexivity. Qed.
Lemma count_app a b : count_true (a ++ b) = (count_true a + count_true b)%nat.
Proof. unfold count_true. now rewrite filter_app, app_length. Qed.
Lemma mget_length {A} m (v : list A) : length m = length v -> length (mget m v) = count_true m.
Proof. revert v. induction m as [|b m IH]; intros [|x v] L; try discriminate; [reflexivity|]. rewrite count_cons. injection L as L. cbn. destruct b; cbn; rewrite IH; auto. Qed.
Lemma mput_length {A} m (w v : list A) : length (mput m w v) = length v.
Proof. revert w v. induction m as [|[] m IH]; intros w [|x v]; try reflexivity; cbn; [destruct w; cbn; now rewrite IH|now rewrite IH]. Qed.
Lemma mput_nth {A} m (w v : list A) q d : length m = length v -> length w = count_true m -> (q < length v)%nat ->
  nth q (mput m w v) d = if on m q then nth (rank m q) w d else nth q v d.
Proof.
  unfold on, rank. revert w v q. induction m as [|b m IH]; intros w [|x v] q L C Q; cbn in Q; try lia; try discriminate.
  injection L as L. rewrite count_cons in C. destruct b.
  - destruct w as [|y w]; [cbn in C; lia|]. cbn [mput]. destruct q as [|q]; [reflexivity|]. cbn [nth firstn]. rewrite count_cons. cbn [plus]. cbn [nth].
    rewrite IH; auto; cbn in C; lia.
  - cbn [mput]. destruct q as [|q]; [reflexivity|]. cbn [nth firstn]. rewrite count_cons. cbn [plus]. apply IH; auto; cbn in C; lia.
Qed.
Lemma mask_assign_ok {A} m (w v : list A) : length w = count_true m -> mask_assign m w v = Ok (mput m w v).
Proof. intros E. unfold mask_assign. now rewrite E, Nat.eqb_refl. Qed.
Lemma mget_nth {A} m (v : list A) q d : length m = length v -> on m q = true -> nth (rank m q) (mget m v) d = nth q v d.
Proof.
  unfold on, rank. revert v q. induction m as [|b m IH]; intros [|x v] q L O; try discriminate; [destruct q; discriminate|]. injection L as L.
  destruct q as [|q].
  - cbn in O. subst b. reflexivity.
  - cbn [nth] in O. cbn [firstn mget nth]. rewrite count_cons. destruct b; cbn [plus nth]; apply IH; auto.
Qed.

(** breaks *)
Lemma breaks_length s c : length (breaks s c) = S (length c).
Proof. revert s. induction c as [|n c IH]; intros s; cbn; [reflexivity|]. now rewrite IH. Qed.
Lemma breaks_nth s c i : (i <= length c)%nat -> nth i (breaks s c) 0%nat = (s + fold_right plus 0 (firstn i c))%nat.
Proof.
  revert s i. induction c as [|n c IH]; intros s [|i] L; cbn in L |- *; try lia. rewrite IH by lia. lia.
Qed.
Lemma breaks_last s c : last (breaks s c) 0%nat = (s + fold_right plus 0 c)%nat.
Proof.
  revert s. induction c as [|n c IH]; intros s; [cbn; lia|]. change (last (breaks s (n :: c)) 0%nat) with (last (s :: breaks (s + n) c) 0%nat).
  assert (N : breaks (s + n) c <> []) by (destruct c; cbn; discriminate).
  destruct (breaks (s + n) c) eqn:E; [contradiction|]. rewrite <- E. cbn [fold_right]. replace (last (s :: breaks (s + n) c) 0%nat) with (last (breaks (s + n) c) 0%nat) by (rewrite E; reflexivity).
  rewrite IH. lia.
Qed.
Lemma sum_firstn_S (c : list nat) i : (i < length c)%nat -> fold_right plus 0%nat (firstn (S i) c) = (fold_right plus 0%nat (firstn i c) + nth i c 0)%nat.
Proof. revert i. induction c as [|n c IH]; intros [|i] L; cbn in L; try lia. - cbn. lia. - cbn [firstn fold_right nth]. rewrite <- Nat.add_assoc, <- (IH i) by lia. reflexivity. Qed.
Lemma sum_firstn_le (c : list nat) i : (fold_right plus 0 (firstn i c) <= fold_right plus 0 c)%nat.
Proof. revert i. induction c as [|n c IH]; intros [|i]; cbn; try lia. specialize (IH i). lia. Qed.

Lemma nth_firstn_lt {A} n k (l : list A) d : (k < n)%nat -> nth k (firstn n l) d = nth k l d.
Proof. revert k l. induction n as [|n IH]; intros k l H; [lia|]. destruct l as [|x l]; [reflexivity|]. destruct k as [|k]; [reflexivity|]. cbn. apply IH. lia. Qed.
Lemma nth_skipn_add {A} n k (l : list A) d : nth k (skipn n l) d = nth (n + k) l d.
Proof. revert l. induction n as [|n IH]; intros l; [reflexivity|]. destruct l as [|x l]; [now destruct k|]. cbn. apply IH. Qed.

Lemma piece_breaks s c i params : (i < length c)%nat ->
  piece (breaks s c) i params = firstn (nth i c 0%nat) (skipn (s + fold_right plus 0 (firstn i c))%nat params).
Proof.
  intros L. unfold piece. rewrite !breaks_nth by lia. rewrite sum_firstn_S by assumption.
  f_equal. lia.
Qed.
Lemma nth_piece s c i params r d : (i < length c)%nat -> (r < nth i c 0)%nat ->
  nth r (piece (breaks s c) i params) d = nth (s + fold_right plus 0 (firstn i c) + r)%nat params d.
Proof. intros L Q. rewrite piece_breaks by assumption. rewrite nth_firstn_lt by assumption. apply nth_skipn_add. Qed.
Lemma length_piece s c i params : (i < length c)%nat -> (s + fold_right plus 0 c <= length params)%nat ->
  length (piece (breaks s c) i params) = nth i c 0%nat.
Proof.
  intros L Q. rewrite piece_breaks by assumption. rewrite firstn_length, skipn_length.
  pose proof (sum_firstn_S c i L). pose proof (sum_firstn_le c (S i)). lia.
Qed.

Lemma rank_lt m q : on m q = true -> (rank m q < count_true m)%nat.
Proof.
  unfold on, rank. revert q. induction m as [|b m IH]; intros [|q] O; try discriminate.
  - cbn in O. subst b. rewrite count_cons. cbn. lia.
  - cbn in O. cbn [firstn]. rewrite !count_cons. specialize (IH q O). lia.
Qed.

(** Pieces of the parameter vector. *)
Section Layout.
Variable m : model. Variable h0 : heap. Hypothesis Cm : consistent m h0.
Variable params : list R. Hypothesis Lp : length params = n_params m.

Lemma total_app a b : total (a ++ b) = (total a + total b)%nat.
Proof. unfold total. rewrite map_app, fold_right_app. induction (map count_true a); cbn; lia. Qed.
Lemma group_piece_length i : (i < length (m_group_masks m))%nat -> length (piece (group_breaks m) i params) = count_true (nth i (m_group_masks m) []).
Proof.
  intros L. unfold group_breaks. rewrite length_piece; [|now rewrite map_length|rewrite Lp; unfold n_params, total; lia].
  change 0%nat with (count_true []). now rewrite map_nth.
Qed.
Lemma cam_breaks_eq : cam_breaks m = breaks (total (m_group_masks m)) (map count_true (m_cam_masks m)).
Proof. unfold cam_breaks, group_breaks. now rewrite breaks_last. Qed.
Lemma cam_piece_length j : (j < length (m_cam_masks m))%nat -> length (piece (cam_breaks m) j params) = count_true (nth j (m_cam_masks m) []).
Proof.
  intros L. rewrite cam_breaks_eq. rewrite length_piece; [|now rewrite map_length|rewrite Lp; unfold n_params, total; lia].
  change 0%nat with (count_true []). now rewrite map_nth.
Qed.
Lemma group_piece_nth i q : (i < length (m_group_masks m))%nat -> group_on m i q = true ->
  nth (rank (nth i (m_group_masks m) []) q) (piece (group_breaks m) i params) 0 = nth (group_pos m i q) params 0.
Proof.
  intros L O. unfold group_breaks. rewrite nth_piece; [|now rewrite map_length|].
  - unfold group_pos, total. rewrite firstn_map. reflexivity.
  - change 0%nat with (count_true []). rewrite map_nth. apply rank_lt, O.
Qed.
Lemma cam_piece_nth j q : (j < length (m_cam_masks m))%nat -> cam_on m j q = true ->
  nth (rank (nth j (m_cam_masks m) []) q) (piece (cam_breaks m) j params) 0 = nth (cam_pos m j q) params 0.
Proof.
  intros L O. rewrite cam_breaks_eq. rewrite nth_piece; [|now rewrite map_length|].
  - unfold cam_pos. rewrite firstn_map. reflexivity.
  - change 0%nat with (count_true []). rewrite map_nth. apply rank_lt, O.
Qed.

(** One camera of one group. *)
Definition pair_step (i j : nat) (h : heap) : heap :=
  let o := nth j (m_cams m) 0%nat in
  hset o (mput (nth j (m_cam_masks m) []) (piece (cam_breaks m) j params)
            (mput (nth i (m_group_masks m) []) (piece (group_breaks m) i params) (h o))) h.
Definition run_pairs (l : list (nat * nat)) (h : heap) : heap := fold_left (fun h p => pair_step (fst p) (snd p) h) l h.
Definition pairs_of (i : nat) (groups : list (list nat)) : list (nat * nat) :=
  (fix go i gs := match gs with [] => [] | idx :: r => map (pair i) idx ++ go (S i) r end) i groups.

Definition same (h h' : heap) : Prop := forall o, h o = h' o.

Lemma assign_ok j o mask w h : nth_error (m_cams m) j = Some o -> length w = count_true mask ->
  assign m j mask w h = (hset o (mput mask w (h o)) h, Ok tt).
Proof. intros E L. unfold assign. rewrite E, mask_assign_ok by assumption. reflexivity. Qed.
Lemma nth_error_cam j : (j < length (m_cams m))%nat -> nth_error (m_cams m) j = Some (nth j (m_cams m) 0%nat).
Proof. intros L. now apply nth_error_nth'. Qed.

Lemma set_group_pairs i idx h : (i < length (m_group_masks m))%nat -> Forall (fun j => (j < length (m_cams m))%nat) idx ->
  exists h', set_group m params i idx h = (h', Ok tt) /\ same h' (run_pairs (map (pair i) idx) h).
Proof.
  intros Li F. revert h. induction F as [|j idx Lj F IH]; intros h; [exists h; split; [reflexivity|intros o; reflexivity]|].
  destruct Cm as (_ & _ & L1 & _).
  cbn [set_group]. rewrite (assign_ok _ _ _ _ _ (nth_error_cam j Lj)) by (now apply group_piece_length). cbn [andthen].
  rewrite (assign_ok _ _ _ _ _ (nth_error_cam j Lj)) by (apply cam_piece_length; lia). cbn [andthen].
  match goal with |- context [set_group m params i idx ?h1] => destruct (IH h1) as (h' & E & S) end.
  exists h'. split; [exact E|]. intros o. rewrite S. cbn [map run_pairs fold_left fst snd].
  enough (Q : forall l a b, same a b -> same (run_pairs l a) (run_pairs l b)).
  { apply Q. intros o'. unfold pair_step, hset. destruct (o' =? nth j (m_cams m) 0%nat)%nat eqn:Eo; [|reflexivity]. now rewrite Nat.eqb_refl. }
  clear. induction l as [|[i j] l IH]; intros a b S; [exact S|]. cbn [run_pairs fold_left fst snd]. apply IH. intros o'. unfold pair_step, hset.
  destruct (o' =? nth j (m_cams m) 0%nat)%nat; rewrite ?S; reflexivity.
Qed.
Lemma run_same l a b : same a b -> same (run_pairs l a) (run_pairs l b).
Proof.
  revert a b. induction l as [|[i j] l IH]; intros a b S; [exact S|]. cbn [run_pairs fold_left fst snd]. apply IH. intros o'. unfold pair_step, hset.
  destruct (o' =? nth j (m_cams m) 0%nat)%nat; rewrite ?S; reflexivity.
Qed.
Lemma run_app a b h : run_pairs (a ++ b) h = run_pairs b (run_pairs a h).
Proof. apply fold_left_app. Qed.
Lemma set_groups_pairs gs i h : (i + length gs <= length (m_group_masks m))%nat -> Forall (Forall (fun j => (j < length (m_cams m))%nat)) gs ->
  exists h', set_groups m params i gs h = (h', Ok tt) /\ same h' (run_pairs (pairs_of i gs) h).
Proof.
  revert i h. induction gs as [|idx gs IH]; intros i h L F; [exists h; split; [reflexivity|intros o; reflexivity]|].
  inversion F as [|? ? F1 F2]; subst. cbn in L. cbn [set_groups].
  destruct (set_group_pairs i idx h) as (h1 & E1 & S1); [lia|assumption|]. rewrite E1. cbn [andthen].
  destruct (IH (S i) h1) as (h2 & E2 & S2); [lia|assumption|]. exists h2. split; [exact E2|]. intros o. rewrite S2.
  change (pairs_of i (idx :: gs)) with (map (pair i) idx ++ pairs_of (S i) gs). rewrite run_app. now apply run_same.
Qed.
Lemma pairs_in gs i k j : In (k, j) (pairs_of i gs) <-> exists idx, (i <= k)%nat /\ nth_error gs (k - i) = Some idx /\ In j idx.
Proof.
  revert i. induction gs as [|x gs IH]; intros i.
  - cbn. split; [tauto|]. intros (idx & _ & E & _). destruct (k - i)%nat; discriminate.
  - change (pairs_of i (x :: gs)) with (map (pair i) x ++ pairs_of (S i) gs). rewrite in_app_iff, in_map_iff, IH. split.
    + intros [(y & E & I)|(idx & L & E & I)].
      * injection E as <- <-. exists x. rewrite Nat.sub_diag. repeat split; auto.
      * exists idx. split; [lia|]. replace (k - i)%nat with (S (k - S i)) by lia. split; auto.
    + intros (idx & L & E & I). destruct (Nat.eq_dec k i) as [->|N].
      * rewrite Nat.sub_diag in E. cbn in E. injection E as ->. left. exists j. auto.
      * right. exists idx. split; [lia|]. replace (k - i)%nat with (S (k - S i)) in E by lia. auto.
Qed.

(** Effect of one step. *)
Lemma cam_inj j j' : (j < length (m_cams m))%nat -> (j' < length (m_cams m))%nat -> nth j (m_cams m) 0%nat = nth j' (m_cams m) 0%nat -> j = j'.
Proof. destruct Cm as (N & _). apply NoDup_nth, N. Qed.
Definition wide (h : heap) : Prop := forall o, In o (m_cams m) -> length (h o) = 20%nat.
Lemma step_other i j o h : o <> nth j (m_cams m) 0%nat -> pair_step i j h o = h o.
Proof. intros N. unfold pair_step, hset. apply Nat.eqb_neq in N. now rewrite N. Qed.
Lemma step_wide i j h : wide h -> wide (pair_step i j h).
Proof.
  intros W o I. unfold pair_step, hset. destruct (o =? nth j (m_cams m) 0%nat)%nat eqn:E; [|now apply W]. apply Nat.eqb_eq in E. subst o.
  rewrite !mput_length. now apply W.
Qed.
Lemma mask20 {X} (l : list (list X)) i : Forall (fun k => length k = 20%nat) l -> (i < length l)%nat -> length (nth i l []) = 20%nat.
Proof. intros F L. rewrite Forall_forall in F. apply F, nth_In, L. Qed.
Lemma step_value i j h q : wide h -> (i < length (m_group_masks m))%nat -> (j < length (m_cams m))%nat -> (q < 20)%nat ->
  nth q (pair_step i j h (nth j (m_cams m) 0%nat)) 0 =
  if cam_on m j q then nth (cam_pos m j q) params 0
  else if group_on m i q then nth (group_pos m i q) params 0 else nth q (h (nth j (m_cams m) 0%nat)) 0.
Proof.
  intros W Li Lj Lq. destruct Cm as (ND & _ & L1 & L2 & F1 & F2 & _). unfold pair_step, hset. rewrite Nat.eqb_refl.
  assert (Lh : length (h (nth j (m_cams m) 0%nat)) = 20%nat) by (apply W, nth_In; lia).
  rewrite mput_nth; [|rewrite mput_length, Lh; apply mask20; [assumption|lia]|apply cam_piece_length; lia|rewrite mput_length, Lh; lia].
  fold (cam_on m j q). destruct (cam_on m j q) eqn:E; [apply cam_piece_nth; [lia|assumption]|].
  rewrite mput_nth; [|rewrite Lh; apply mask20; [assumption|lia]|now apply group_piece_length|rewrite Lh; lia].
  fold (group_on m i q). destruct (group_on m i q) eqn:E2; [|reflexivity]. now apply group_piece_nth.
Qed.

Definition valid_pairs (l : list (nat * nat)) : Prop := Forall (fun p => (fst p < length (m_group_masks m))%nat /\ (snd p < length (m_cams m))%nat) l.
Lemma run_wide l h : wide h -> wide (run_pairs l h).
Proof. revert h. induction l as [|[i j] l IH]; intros h W; [exact W|]. cbn. apply IH, step_wide, W. Qed.
Lemma run_untouched l h o : valid_pairs l -> (forall i j, In (i, j) l -> o <> nth j (m_cams m) 0%nat) -> run_pairs l h o = h o.
Proof.
  revert h. induction l as [|[i j] l IH]; intros h V N; [reflexivity|]. inversion V; subst. cbn [run_pairs fold_left fst snd].
  change (run_pairs l (pair_step i j h) o = h o). rewrite IH; [|assumption|intros; apply N with i0; now right]. apply step_other, (N i j). now left.
Qed.
Lemma run_cam l h j q : wide h -> valid_pairs l -> (j < length (m_cams m))%nat -> (q < 20)%nat -> cam_on m j q = true -> (exists i, In (i, j) l) ->
  nth q (run_pairs l h (nth j (m_cams m) 0%nat)) 0 = nth (cam_pos m j q) params 0.
Proof.
  intros W V Lj Lq O Ex.
  assert (K : forall l h, wide h -> valid_pairs l -> (nth q (h (nth j (m_cams m) 0%nat)) 0 = nth (cam_pos m j q) params 0 \/ exists i, In (i, j) l) ->
    nth q (run_pairs l h (nth j (m_cams m) 0%nat)) 0 = nth (cam_pos m j q) params 0).
  { clear l h W V Ex. induction l as [|[i k] l IH]; intros h W V H; [destruct H as [H|[i []]]; exact H|]. inversion V as [|? ? [V1 V2] V3]; subst. cbn in V1, V2.
    cbn [run_pairs fold_left fst snd]. apply IH; [now apply step_wide|assumption|]. destruct (Nat.eq_dec k j) as [->|N].
    - left. rewrite step_value by assumption. now rewrite O.
    - destruct H as [H|[i' [H|H]]].
      + left. rewrite step_other; [exact H|]. intros E. apply N. symmetry. now apply cam_inj.
      + injection H as -> ->. contradiction.
      + right. now exists i'. }
  apply K; auto.
Qed.
Lemma run_group l h j q i : wide h -> valid_pairs l -> (j < length (m_cams m))%nat -> (q < 20)%nat -> cam_on m j q = false -> group_on m i q = true ->
  In (i, j) l -> (forall i', In (i', j) l -> group_on m i' q = true -> i' = i) ->
  nth q (run_pairs l h (nth j (m_cams m) 0%nat)) 0 = nth (group_pos m i q) params 0.
Proof.
  intros W V Lj Lq O G I U.
  assert (K : forall l h, wide h -> valid_pairs l -> (forall i', In (i', j) l -> group_on m i' q = true -> i' = i) ->
    (nth q (h (nth j (m_cams m) 0%nat)) 0 = nth (group_pos m i q) params 0 \/ In (i, j) l) ->
    nth q (run_pairs l h (nth j (m_cams m) 0%nat)) 0 = nth (group_pos m i q) params 0).
  { clear l h W V I U. induction l as [|[i' k] l IH]; intros h W V U H; [destruct H as [H|[]]; exact H|]. inversion V as [|? ? [V1 V2] V3]; subst. cbn in V1, V2.
    cbn [run_pairs fold_left fst snd]. apply IH; [now apply step_wide|assumption|intros; apply U; [now right|assumption]|]. destruct (Nat.eq_dec k j) as [->|N].
    - destruct (group_on m i' q) eqn:G'.
      + left. rewrite step_value by assumption. rewrite O, G'. now rewrite (U i') by (auto; now left).
      + destruct H as [H|[H|H]].
        * left. rewrite step_value by assumption. now rewrite O, G'.
        * injection H as ->. congruence.
        * now right.
    - destruct H as [H|[H|H]].
      + left. rewrite step_other; [exact H|]. intros E. apply N. symmetry. now apply cam_inj.
      + injection H as -> ->. contradiction.
      + now right. }
  apply K; auto.
Qed.
Lemma run_neither l h j q : wide h -> valid_pairs l -> (j < length (m_cams m))%nat -> (q < 20)%nat -> cam_on m j q = false ->
  (forall i, In (i, j) l -> group_on m i q = false) ->
  nth q (run_pairs l h (nth j (m_cams m) 0%nat)) 0 = nth q (h (nth j (m_cams m) 0%nat)) 0.
Proof.
  intros W V Lj Lq O N. revert h W V. induction l as [|[i k] l IH]; intros h W V; [reflexivity|]. inversion V as [|? ? [V1 V2] V3]; subst. cbn in V1, V2.
  cbn [run_pairs fold_left fst snd]. change (nth q (run_pairs l (pair_step i k h) (nth j (m_cams m) 0%nat)) 0 = nth q (h (nth j (m_cams m) 0%nat)) 0).
  rewrite IH; [|intros; apply N; now right|now apply step_wide|assumption]. destruct (Nat.eq_dec k j) as [->|Nk].
  - rewrite step_value by assumption. rewrite O, (N i) by now left. reflexivity.
  - rewrite step_other; [reflexivity|]. intros E. apply Nk. symmetry. now apply cam_inj.
Qed.

(** The overlap test separates groups. *)
Lemma has_duplicates_false l : has_duplicates l = false -> NoDup l.
Proof.
  unfold has_duplicates. rewrite Nat.ltb_ge. intros L.
  assert (K : forall l : list nat, (length (nodup Nat.eq_dec l) <= length l)%nat /\ (length l <= length (nodup Nat.eq_dec l) -> NoDup l)%nat).
  { clear. induction l as [|a l [IH1 IH2]]; [split; [reflexivity|constructor]|]. cbn [nodup]. destruct (in_dec Nat.eq_dec a l) as [I|N]; cbn [length].
    - split; [lia|]. intros H. exfalso. lia.
    - split; [lia|]. intros H. constructor; auto. apply IH2. lia. }
  now apply K.
Qed.
Lemma NoDup_concat_in {X} (f : nat -> list X) l i i' x : NoDup (concat (map f l)) -> NoDup l -> In i l -> In i' l -> In x (f i) -> In x (f i') -> i = i'.
Proof.
  induction l as [|a l IH]; intros ND NL I I' X1 X2; [destruct I|]. cbn in ND. inversion NL as [|? ? NI NL']; subst.
  assert (D : forall y, In y (f a) -> ~ In y (concat (map f l))).
  { clear - ND. intros y Y1 Y2. induction (f a) as [|z r IHr]; [destruct Y1|]. cbn in ND. inversion ND as [|? ? Q1 Q2]; subst. destruct Y1 as [->|Y1]; [|auto].
    apply Q1. apply in_or_app. now right. }
  assert (C : forall k, In k l -> In x (f k) -> In x (concat (map f l))).
  { intros k K1 K2. apply in_concat. exists (f k). split; [now apply in_map|assumption]. }
  destruct I as [->|I], I' as [->|I']; auto.
  - exfalso. eapply D; eauto.
  - exfalso. eapply D; eauto.
  - apply IH; auto. clear - ND. induction (f a) as [|y r IHr]; [exact ND|]. cbn in ND. inversion ND; subst. auto.
Qed.
Lemma overlap_unique i i' j q : (q < 20)%nat -> member m i j -> member m i' j -> group_on m i q = true -> group_on m i' q = true -> i = i'.
Proof.
  intros Lq (idx & E & I) (idx' & E' & I') G G'. destruct (Nat.eq_dec i i') as [->|N]; [reflexivity|]. destruct Cm as (_ & _ & _ & L2 & _ & _ & _ & T).
  unfold overlap_test in T. destruct (existsb _ _) eqn:X in T; [discriminate|]. clear T.
  assert (Li : (i < length (m_group_masks m))%nat) by (rewrite L2; apply nth_error_Some; congruence).
  assert (Li' : (i' < length (m_group_masks m))%nat) by (rewrite L2; apply nth_error_Some; congruence).
  assert (In1 : In i (groups_with m q)) by (apply filter_In; split; [apply in_seq; lia|exact G]).
  assert (In2 : In i' (groups_with m q)) by (apply filter_In; split; [apply in_seq; lia|exact G']).
  assert (Y : ((1 <? length (groups_with m q))%nat && has_duplicates (concat (map (fun g => nth g (m_group_indices m) []) (groups_with m q))))%bool = false).
  { rewrite <- not_true_iff_false in X |- *. intros Z. apply X. apply existsb_exists. exists q. split; [apply in_seq; lia|exact Z]. }
  apply andb_false_iff in Y. destruct Y as [Y|Y].
  - exfalso. apply Nat.ltb_ge in Y. destruct (groups_with m q) as [|a [|b r]]; cbn in Y; try lia; cbn in In1, In2; [tauto|]. destruct In1 as [->|[]], In2 as [->|[]]. now apply N.
  - apply has_duplicates_false in Y. apply (NoDup_concat_in (fun g => nth g (m_group_indices m) []) (groups_with m q) i i' j); auto.
    + apply NoDup_filter, seq_NoDup.
    + now rewrite (nth_error_nth _ _ _ E).
    + now rewrite (nth_error_nth _ _ _ E').
Qed.

Lemma member_pairs i j : member m i j <-> In (i, j) (pairs_of 0 (m_group_indices m)).
Proof.
  rewrite pairs_in. unfold member. split.
  - intros (idx & E & I). exists idx. rewrite Nat.sub_0_r. repeat split; auto. lia.
  - intros (idx & _ & E & I). rewrite Nat.sub_0_r in E. now exists idx.
Qed.
Lemma pairs_valid : valid_pairs (pairs_of 0 (m_group_indices m)).
Proof.
  destruct Cm as (_ & _ & _ & L2 & _ & _ & F & _). apply Forall_forall. intros [i j] I. apply member_pairs in I. destruct I as (idx & E & I). cbn. split.
  - rewrite L2. apply nth_error_Some. congruence.
  - rewrite Forall_forall in F. apply nth_error_In in E. specialize (F _ E). rewrite Forall_forall in F. now apply F.
Qed.
Lemma set_cameras_run h : exists h', set_cameras m params h = (h', Ok tt) /\ same h' (run_pairs (pairs_of 0 (m_group_indices m)) h).
Proof.
  destruct Cm as (_ & _ & _ & L2 & _ & _ & F & _). apply set_groups_pairs; [rewrite L2; lia|exact F].
Qed.
Theorem set_cameras_spec h : wide h -> exists h', set_cameras m params h = (h', Ok tt) /\
  (forall j q, (j < length (m_cams m))%nat -> (q < 20)%nat -> grouped m j -> camera_value m params h h' j q) /\
  (forall j, (j < length (m_cams m))%nat -> ~ grouped m j -> h' (nth j (m_cams m) 0%nat) = h (nth j (m_cams m) 0%nat)) /\
  (forall o, ~ In o (m_cams m) -> h' o = h o) /\ wide h'.
Proof.
  intros W. destruct (set_cameras_run h) as (h' & E & S). exists h'. split; [exact E|]. pose proof pairs_valid as V. split; [|split; [|split]].
  - intros j q Lj Lq (i0 & G0). unfold camera_value. cbv zeta. rewrite S. split; [|split].
    + intros O. apply run_cam; auto. exists i0. now apply member_pairs.
    + intros i Mi O N. apply run_group; auto; [now apply member_pairs|]. intros i' I' O'. apply member_pairs in I'. now apply (overlap_unique i' i j q).
    + intros N O. apply run_neither; auto. intros i I. apply N. now apply member_pairs.
  - intros j Lj N. rewrite S. apply run_untouched; [assumption|]. intros i k I Eq. pose proof (proj1 (Forall_forall _ _) V) as V'. destruct (V' _ I) as [_ Lk]. cbn in Lk.
    apply cam_inj in Eq; auto. subst k. apply N. exists i. now apply member_pairs.
  - intros o N. rewrite S. apply run_untouched; [assumption|]. intros i k I ->. apply N. pose proof (proj1 (Forall_forall _ _) V) as V'. destruct (V' _ I) as [_ Lk]. now apply nth_In.
  - intros o I. rewrite S. now apply run_wide.
Qed.
End Layout.
