(** Property C54: dropping images, and the counts of matches per image. *)
From Coq Require Import String Sorting.Sorted.
From Verif Require Import Base BaseLemmas MatcherModel P_Matcher P_Matcher2.
Open Scope Z_scope.

Definition image_at {I K M} (s : matcher I K M) (i : Z) : option I := if i <? 0 then None else nth_error (mt_images s) (Z.to_nat i).
Definition entries {I K M} (s : matcher I K M) : list (Z * Z * M) := match mt_matches s with Some m => coo_entries m | None => [] end.
(** Rows and columns are images. *)
Definition well_formed {I K M} (s : matcher I K M) : Prop := mt_matches s <> None /\ forall i j x, In (i, j, x) (entries s) -> image_at s i <> None /\ image_at s j <> None.
(** e and e' are the same matches between the same two images *)
Definition same_match {I K M} (s s' : matcher I K M) (e e' : Z * Z * M) : Prop :=
  snd e' = snd e /\ image_at s' (row e') = image_at s (row e) /\ image_at s' (col e') = image_at s (col e) /\ image_at s (row e) <> None /\ image_at s (col e) <> None.
Definition avoids {M} (imgs : list Z) (e : Z * Z * M) : Prop := ~ In (row e) imgs /\ ~ In (col e) imgs.

Lemma zsorted_ext l1 : forall l2, StronglySorted Z.lt l1 -> StronglySorted Z.lt l2 -> (forall i, In i l1 <-> In i l2) -> l1 = l2.
Proof.
  induction l1 as [|a l1 IH]; intros [|b l2] S1 S2 H; [reflexivity|exfalso; destruct (proj2 (H b)); now left|exfalso; destruct (proj1 (H a)); now left|].
  inversion S1 as [|? ? S1' F1]; inversion S2 as [|? ? S2' F2]; subst. rewrite Forall_forall in F1, F2.
  assert (a = b). { destruct (proj1 (H a)) as [E|I]; [now left|auto|]. destruct (proj2 (H b)) as [E|I']; [now left|auto|]. apply F2 in I. apply F1 in I'. lia. } subst b.
  f_equal. apply IH; [assumption|assumption|]. intros i. split; intros I.
  - destruct (proj1 (H i)) as [E|J]; [now right| |exact J]. subst i. apply F1 in I. lia.
  - destruct (proj2 (H i)) as [E|J]; [now right| |exact J]. subst i. apply F2 in I. lia.
Qed.
Lemma touches_false {M} imgs (e : Z * Z * M) : touches imgs e = false <-> avoids imgs e.
Proof. unfold touches, avoids. rewrite orb_false_iff, !zmem_false. reflexivity. Qed.
Lemma index_in_sorted l x : StronglySorted lt l -> In x l -> nth_error l (length (filter (fun y => (y <? x)%nat) l)) = Some x.
Proof.
  induction 1 as [|y l S IH F]; [intros []|]. rewrite Forall_forall in F. intros [->|I]; cbn [filter].
  - rewrite Nat.ltb_irrefl. replace (filter (fun z => (z <? x)%nat) l) with (@nil nat); [reflexivity|]. symmetry. clear -F. induction l as [|z l IH]; [reflexivity|]. cbn [filter]. destruct (Nat.ltb_spec z x); [|apply IH; intros w I; apply F; now right]. specialize (F z (or_introl eq_refl)). lia.
  - pose proof (F x I). destruct (Nat.ltb_spec y x); [|lia]. cbn. now apply IH.
Qed.
Lemma filter_sorted_nat (f : nat -> bool) l : StronglySorted lt l -> StronglySorted lt (filter f l).
Proof. induction 1 as [|a l S IH F]; cbn; [constructor|]. destruct (f a); [|exact IH]. constructor; [exact IH|]. rewrite Forall_forall in *. intros x I. apply filter_In in I. apply F, I. Qed.
Lemma select_nth {I} (g : nat -> bool) : forall (l : list I) s p,
  nth_error (map snd (filter (fun q => g (fst q)) (combine (seq s (length l)) l))) p = match nth_error (filter g (seq s (length l))) p with Some i => nth_error l (i - s) | None => None end.
Proof.
  induction l as [|x l IH]; intros s p; cbn; [destruct p; reflexivity|]. destruct (g s); cbn.
  - destruct p; cbn; [now rewrite Nat.sub_diag|]. rewrite IH. destruct (nth_error (filter g (seq (S s) (length l))) p) as [i|] eqn:E; [|reflexivity]. apply nth_error_In, filter_In in E as [E _]. apply in_seq in E. replace (i - s)%nat with (S (i - S s)) by lia. reflexivity.
  - rewrite IH. destruct (nth_error (filter g (seq (S s) (length l))) p) as [i|] eqn:E; [|reflexivity]. apply nth_error_In, filter_In in E as [E _]. apply in_seq in E. replace (i - s)%nat with (S (i - S s)) by lia. reflexivity.
Qed.
Lemma position_map l x : position (Z.of_nat x) (map Z.of_nat l) = Z.of_nat (length (filter (fun y => (y <? x)%nat) l)).
Proof.
  unfold position. f_equal. induction l as [|y l IH]; [reflexivity|]. cbn [map filter]. destruct (Z.ltb_spec (Z.of_nat y) (Z.of_nat x)), (Nat.ltb_spec y x); cbn [length]; lia.
Qed.
Lemma image_at_some {I K M} (s : matcher I K M) i : image_at s i <> None <-> 0 <= i < Z.of_nat (length (mt_images s)).
Proof. unfold image_at. destruct (Z.ltb_spec i 0); [split; [congruence|lia]|]. rewrite nth_error_Some. lia. Qed.

(** Dropping images: the matches left are those between other images, in the same order and each between the same two images; the
    images left are those with matches left, in the same order. *)
Theorem drop_images_aligned {I K M} imgs (s : matcher I K M) : well_formed s -> exists s', drop_images imgs s = Ok s' /\ well_formed s' /\
  (exists left, (forall e, left e = true <-> avoids imgs e) /\ Forall2 (same_match s s') (filter left (entries s)) (entries s')) /\
  (exists kept, StronglySorted lt kept /\ map (fun i => nth_error (mt_images s) i) kept = map Some (mt_images s') /\
     forall i, In i kept <-> exists j x, (In (Z.of_nat i, j, x) (entries s) \/ In (j, Z.of_nat i, x) (entries s)) /\ ~ In (Z.of_nat i) imgs /\ ~ In j imgs) /\
  (exists m, mt_matches s' = Some m /\ coo_shape m = (Z.of_nat (length (mt_images s')), Z.of_nat (length (mt_images s')))).
Proof.
  intros [Hm W]. unfold drop_images, entries in *. destruct (mt_matches s) as [m|]; [|contradiction]. clear Hm.
  set (es := filter (fun e => negb (touches imgs e)) (coo_entries m)). set (n := length (mt_images s)). set (keep := unique (map row es ++ map col es)).
  set (drop := filter (fun i => negb (zmem i keep)) (zrange 0 (Z.of_nat n))). set (kept := filter (fun i => zmem (Z.of_nat i) keep) (seq 0 n)).
  assert (InEs : forall e, In e es <-> In e (coo_entries m) /\ avoids imgs e). { intros e. unfold es. rewrite filter_In, negb_true_iff, touches_false. reflexivity. }
  assert (Rng : forall e, In e es -> 0 <= row e < Z.of_nat n /\ 0 <= col e < Z.of_nat n).
  { intros [[i j] x] I'. apply InEs in I' as [I' _]. apply W in I' as [A B]. apply image_at_some in A, B. auto. }
  assert (InKeep : forall x, In x keep <-> exists e, In e es /\ (x = row e \/ x = col e)).
  { intros x. unfold keep. rewrite unique_In, in_app_iff, !in_map_iff. split; [intros [(e & <- & Ie)|(e & <- & Ie)]; eauto|]. intros (e & Ie & [->| ->]); eauto. }
  assert (KR : forall x, In x keep -> 0 <= x < Z.of_nat n). { intros x Ix. apply InKeep in Ix as (e & Ie & [->| ->]); now apply Rng. }
  assert (InKept : forall i, In i kept <-> In (Z.of_nat i) keep). { intros i. unfold kept. rewrite filter_In, in_seq, zmem_In. split; [tauto|]. intros Q. split; [apply KR in Q; lia|exact Q]. }
  assert (KS : StronglySorted lt kept) by (apply filter_sorted_nat, seq_lt_sorted).
  assert (Keq : keep = map Z.of_nat kept).
  { apply zsorted_ext; [apply unique_sorted|apply zmap_sorted; [intros; lia|exact KS]|]. intros x. rewrite in_map_iff. split.
    - intros Q. exists (Z.to_nat x). pose proof (KR x Q). rewrite InKept, Z2Nat.id by lia. auto.
    - intros (i & <- & Q). now apply InKept. }
  assert (Ur : unique (map row es ++ keep) = keep). { apply zsorted_ext; [apply unique_sorted|apply unique_sorted|]. intros x. rewrite unique_In, in_app_iff. split; [|auto]. intros [Q|Q]; [|exact Q]. apply in_map_iff in Q as (e & <- & Ie). apply InKeep. eauto. }
  assert (Uc : unique (map col es ++ keep) = keep). { apply zsorted_ext; [apply unique_sorted|apply unique_sorted|]. intros x. rewrite unique_In, in_app_iff. split; [|auto]. intros [Q|Q]; [|exact Q]. apply in_map_iff in Q as (e & <- & Ie). apply InKeep. eauto. }
  rewrite Ur, Uc.
  assert (InDrop : forall i, (i < n)%nat -> negb (zmem (Z.of_nat i) drop) = zmem (Z.of_nat i) keep).
  { intros i Hi. unfold drop. destruct (zmem (Z.of_nat i) keep) eqn:Ek; [|].
    - apply negb_true_iff, zmem_false. rewrite filter_In, Ek. intros [_ Q]. discriminate.
    - apply negb_false_iff, zmem_In. rewrite filter_In, zrange_In, Ek. split; [lia|reflexivity]. }
  assert (Imgs : map snd (filter (fun p => negb (zmem (Z.of_nat (fst p)) drop)) (combine (seq 0 n) (mt_images s))) = map snd (filter (fun p => zmem (Z.of_nat (fst p)) keep) (combine (seq 0 n) (mt_images s)))).
  { f_equal. apply filter_ext_in. intros [i y] Q. apply in_combine_l, in_seq in Q. cbn [fst]. apply InDrop. lia. }
  fold n. rewrite Imgs. clear Imgs. set (imgs' := map snd (filter (fun p => zmem (Z.of_nat (fst p)) keep) (combine (seq 0 n) (mt_images s)))).
  assert (Nth : forall p, nth_error imgs' p = match nth_error kept p with Some i => nth_error (mt_images s) i | None => None end).
  { intros p. unfold imgs'. unfold n. rewrite (select_nth (fun i => zmem (Z.of_nat i) keep)). fold n kept. destruct (nth_error kept p); [now rewrite Nat.sub_0_r|reflexivity]. }
  assert (Ki : forall i, In i kept -> exists y, nth_error (mt_images s) i = Some y). { intros i Q. unfold kept in Q. apply filter_In in Q as [Q _]. apply in_seq in Q. destruct (nth_error (mt_images s) i) eqn:E; [eauto|apply nth_error_None in E; unfold n in Q; lia]. }
  assert (MapK : map (fun i => nth_error (mt_images s) i) kept = map Some imgs').
  { apply list_eq. intros p. rewrite !nth_error_map, Nth. destruct (nth_error kept p) as [i|] eqn:E; [|reflexivity]. cbn. destruct (Ki i) as [y ->]; [now apply nth_error_In in E|]. reflexivity. }
  assert (Len : Z.of_nat n - Z.of_nat (length drop) = Z.of_nat (length imgs')).
  { assert (length imgs' = length kept) by (apply (f_equal (@length _)) in MapK; rewrite !map_length in MapK; congruence). rewrite H.
    assert (Q : (length drop + length kept = n)%nat).
    { unfold drop, kept. clear. assert (G : forall l, (length (filter (fun i => negb (zmem i keep)) (map Z.of_nat l)) + length (filter (fun i => zmem (Z.of_nat i) keep) l) = length l)%nat). { induction l as [|x l IH]; [reflexivity|]. cbn. destruct (zmem (Z.of_nat x) keep); cbn; lia. }
      specialize (G (seq 0 n)). rewrite seq_length in G. etransitivity; [|exact G]. do 3 f_equal. unfold zrange. replace (Z.to_nat (Z.of_nat n - 0)) with n by lia. apply map_ext. intros i. lia. }
    lia. }
  rewrite Len.
  set (s' := mk_matcher imgs' (mt_keypoints s) _). exists s'. split; [reflexivity|].
  assert (Pos : forall x, In x keep -> image_at s' (position x keep) = image_at s x /\ image_at s x <> None).
  { intros x Ix. pose proof (KR x Ix) as Rx. split; [|now apply image_at_some]. assert (x = Z.of_nat (Z.to_nat x)) by lia. set (i := Z.to_nat x) in *. rewrite H in Ix. apply InKept in Ix. rewrite H. rewrite Keq, position_map. unfold image_at.
    destruct (Z.ltb_spec (Z.of_nat (length (filter (fun y => (y <? i)%nat) kept))) 0); [lia|]. destruct (Z.ltb_spec (Z.of_nat i) 0); [lia|]. rewrite !Nat2Z.id. cbn [mt_images s']. rewrite Nth, (index_in_sorted kept i KS Ix). reflexivity. }
  assert (F2 : Forall2 (same_match s s') es (map (fun e => (position (row e) keep, position (col e) keep, snd e)) es)).
  { assert (G : forall l, (forall e, In e l -> In e es) -> Forall2 (same_match s s') l (map (fun e => (position (row e) keep, position (col e) keep, snd e)) l)); [|now apply G].
    induction l as [|e l IH]; intros Hl; constructor; [|apply IH; intros; apply Hl; now right]. assert (Ie : In e es) by (apply Hl; now left).
    destruct (Pos (row e)) as [A B]; [apply InKeep; eauto|]. destruct (Pos (col e)) as [A' B']; [apply InKeep; eauto|]. unfold same_match, row at 1, col at 1. cbn [fst snd]. auto. }
  split; [|split; [|split]].
  - split; [discriminate|]. cbn [mt_matches coo_entries]. intros i j x Q. apply in_map_iff in Q as (e & [= <- <- <-] & Ie). destruct (Pos (row e)) as [A B]; [apply InKeep; eauto|]. destruct (Pos (col e)) as [A' B']; [apply InKeep; eauto|]. split; congruence.
  - exists (fun e => negb (touches imgs e)). split; [intros e; rewrite negb_true_iff; apply touches_false|exact F2].
  - exists kept. split; [exact KS|]. split; [exact MapK|]. intros i. rewrite InKept, InKeep. split.
    + intros ([[r c] x] & Ie & Q). apply InEs in Ie as [Ie [A B]]. unfold row, col in *. cbn [fst snd] in *. destruct Q as [<-|<-]; [exists c, x|exists r, x]; auto.
    + intros (j & x & [Q|Q] & A & B); [exists (Z.of_nat i, j, x)|exists (j, Z.of_nat i, x)]; (split; [apply InEs; split; [exact Q|split; assumption]|]); unfold row, col; cbn; auto.
  - eexists. split; reflexivity.
Qed.
(** Any sequence of drops: every match left is one of the original matches and is between the same two images. *)
Fixpoint drops {I K M} (l : list (list Z)) (s : matcher I K M) : result (matcher I K M) := match l with [] => Ok s | i :: r => let* s := drop_images i s in drops r s end.
Lemma Forall2_In_r {A B} (R : A -> B -> Prop) l l' y : Forall2 R l l' -> In y l' -> exists x, In x l /\ R x y.
Proof. induction 1 as [|a b l l' H F IH]; intros []; [subst; exists a; split; [now left|assumption]|]. destruct IH as (x & ? & ?); auto. exists x. split; [now right|assumption]. Qed.
Theorem drop_images_history {I K M} l : forall s : matcher I K M, well_formed s -> exists s', drops l s = Ok s' /\ well_formed s' /\ forall e', In e' (entries s') -> exists e, In e (entries s) /\ same_match s s' e e'.
Proof.
  induction l as [|imgs l IH]; intros s W.
  - exists s. split; [reflexivity|]. split; [exact W|]. intros [[i j] x] Ie. exists (i, j, x). split; [exact Ie|]. apply (proj2 W) in Ie. unfold same_match, row, col. cbn [fst snd]. tauto.
  - destruct (drop_images_aligned imgs s W) as (s1 & E1 & W1 & (left & A & F) & _). destruct (IH s1 W1) as (s2 & E2 & W2 & H2). exists s2. cbn [drops]. rewrite E1. cbn [bind]. split; [exact E2|]. split; [exact W2|].
    intros e2 I2. destruct (H2 e2 I2) as (e1 & I1 & S1 & S2 & S3 & _). destruct (Forall2_In_r _ _ _ _ F I1) as (e & Ie & T1 & T2 & T3 & T4 & T5). exists e. apply filter_In in Ie. split; [apply Ie|]. unfold same_match. repeat split; congruence.
Qed.
Print Assumptions drop_images_history.
Definition ex5 : matcher Z unit Z := mk_matcher [100; 101; 102; 103; 104] None (Some (mk_coo [(0, 1, 7); (0, 2, 8); (2, 4, 9)] (3, 5))).
Example drop_ex_well_formed : well_formed ex5.
Proof. split; [discriminate|]. cbn. intros i j x [E|[E|[E|[]]]]; injection E as <- <- <-; cbn; split; discriminate. Qed.
Example drop_ex : drop_images [1] ex5 = Ok (mk_matcher [100; 102; 104] None (Some (mk_coo [(0, 1, 8); (1, 2, 9)] (3, 3)))).
Proof. reflexivity. Qed.
(** Claimed: drops the given images.  It also drops every image without matches, even if no image is given. *)
Theorem drop_images_others_refuted : exists s : matcher Z unit Z, well_formed s /\ drop_images [] s = Ok (mk_matcher [100; 101; 102; 104] None (Some (mk_coo [(0, 1, 7); (0, 2, 8); (2, 3, 9)] (4, 4)))) /\ mt_images s = [100; 101; 102; 103; 104].
Proof. exists ex5. split; [exact drop_ex_well_formed|]. split; reflexivity. Qed.
(** The keypoints are not dropped with their images, so keypoints[i] is no longer that of images[i]: matching again takes them for those of other images. *)
Theorem drop_images_keypoints_refuted {I K M} imgs (s s' : matcher I K M) : drop_images imgs s = Ok s' -> mt_keypoints s' = mt_keypoints s.
Proof. unfold drop_images. destruct (mt_matches s); intros H; [|discriminate]. injection H as <-. reflexivity. Qed.
Example drop_images_keypoints_ex : exists s', drop_images [1] (mk_matcher [100; 101; 102] (Some [Some 0; Some 1; Some 2]) (Some (mk_coo [(0, 1, 7); (0, 2, 8)] (1, 3)))) = Ok s' /\ image_at s' 1 = Some 102 /\ mt_keypoints s' = Some [Some 0; Some 1; Some 2].
Proof. eexists. split; [reflexivity|]. split; reflexivity. Qed.

(* ---------------------------------------------------------------- *)
(** ** Counts *)
Definition total (l : list Z) : Z := fold_right Z.add 0 l.
Lemma total_app l1 l2 : total (l1 ++ l2) = total l1 + total l2. Proof. unfold total. induction l1; cbn; lia. Qed.
(** Number of matched points per image: each match counts for its two images. *)
Theorem matches_per_image_spec {I K M} (size : M -> Z) (s : matcher I K M) : well_formed s -> (forall i j x, In (i, j, x) (entries s) -> i <> j) ->
  exists c, matches_per_image size s = Ok c /\ length c = length (mt_images s) /\
  (forall i, (i < length (mt_images s))%nat -> nth_error c i = Some (total (map (fun e => if (row e =? Z.of_nat i) || (col e =? Z.of_nat i) then size (snd e) else 0)%bool (entries s)))) /\
  total c = 2 * total (map (fun e => size (snd e)) (entries s)).
Proof.
  intros [Hm W] D. unfold matches_per_image, entries in *. destruct (mt_matches s) as [m|]; [|contradiction]. clear Hm. set (n := length (mt_images s)).
  assert (G : forall i l, fold_right Z.add 0 (map size (map snd (filter (touches [i]) l))) = total (map (fun e => if (row e =? i) || (col e =? i) then size (snd e) else 0)%bool l)).
  { intros i l. unfold total. induction l as [|e l IH]; [reflexivity|]. cbn [filter map fold_right]. unfold touches at 1, zmem. cbn [existsb]. rewrite !orb_false_r. destruct ((row e =? i) || (col e =? i))%bool; cbn [map fold_right]; rewrite IH; [reflexivity|lia]. }
  eexists. split; [reflexivity|]. split; [rewrite map_length, zrange_length; lia|]. split.
  - intros i Hi. rewrite nth_error_map. unfold zrange. rewrite nth_error_map. rewrite (nth_error_nth' _ 0%nat) by (rewrite seq_length; lia). cbn [option_map]. rewrite seq_nth by lia. unfold image_matches. rewrite G. do 3 f_equal.
  - unfold image_matches. rewrite (map_ext _ _ (fun i => G i (coo_entries m))).
    assert (One : forall i x, 0 <= i < Z.of_nat n -> total (map (fun j => if i =? j then x else 0) (zrange 0 (Z.of_nat n))) = x).
    { intros i x Hi. unfold zrange. replace (Z.to_nat (Z.of_nat n - 0)) with n by lia. rewrite map_map. assert (H : forall k a, total (map (fun j => if i =? 0 + Z.of_nat j then x else 0) (seq a k)) = if ((Z.of_nat a <=? i) && (i <? Z.of_nat (a + k)))%bool then x else 0).
      { induction k as [|k IH]; intros a; cbn [seq map]; [cbn; destruct (Z.leb_spec (Z.of_nat a) i), (Z.ltb_spec i (Z.of_nat (a + 0))); cbn; lia|]. change (total (?h :: ?t)) with (h + total t). rewrite IH.
        destruct (Z.eqb_spec i (0 + Z.of_nat a)), (Z.leb_spec (Z.of_nat (S a)) i), (Z.leb_spec (Z.of_nat a) i), (Z.ltb_spec i (Z.of_nat (S a + k))), (Z.ltb_spec i (Z.of_nat (a + S k))); cbn [andb]; lia. }
      rewrite H. destruct (Z.leb_spec (Z.of_nat 0) i), (Z.ltb_spec i (Z.of_nat (0 + n))); cbn [andb]; lia. }
    assert (W' : forall e, In e (coo_entries m) -> 0 <= row e < Z.of_nat n /\ 0 <= col e < Z.of_nat n /\ row e <> col e).
    { intros [[i j] x] Ie. destruct (W _ _ _ Ie) as [A B]. apply image_at_some in A, B. pose proof (D _ _ _ Ie). unfold row, col; cbn. auto. }
    clear W D G. induction (coo_entries m) as [|e l IH].
    + cbn [map]. change (total []) with 0. clear. induction (zrange 0 (Z.of_nat n)) as [|x l IH]; [reflexivity|]. cbn [map]. change (total (?h :: ?t)) with (h + total t). lia.
    + assert (Sp : total (map (fun i => total (map (fun e => if (row e =? i) || (col e =? i) then size (snd e) else 0)%bool (e :: l))) (zrange 0 (Z.of_nat n))) =
        total (map (fun j => if row e =? j then size (snd e) else 0) (zrange 0 (Z.of_nat n))) + total (map (fun j => if col e =? j then size (snd e) else 0) (zrange 0 (Z.of_nat n))) + total (map (fun i => total (map (fun e => if (row e =? i) || (col e =? i) then size (snd e) else 0)%bool l)) (zrange 0 (Z.of_nat n)))).
      { clear -W'. specialize (W' e (or_introl eq_refl)). induction (zrange 0 (Z.of_nat n)) as [|x r IH]; [reflexivity|]. cbn [map] in *. repeat change (total (?h :: ?t)) with (h + total t) in *. rewrite IH. destruct (Z.eqb_spec (row e) x), (Z.eqb_spec (col e) x); cbn [orb]; lia. }
      rewrite Sp, !One by (apply W'; now left). rewrite IH by (intros e' Ie; apply W'; now right). cbn [map]. change (total (?h :: ?t)) with (h + total t). lia.
Qed.
(** Number of images matched to each image. *)
Theorem images_per_image_spec {I K M} (size : M -> Z) (s : matcher I K M) : well_formed s -> NoDup (map fst (entries s)) -> (forall i j x, In (i, j, x) (entries s) -> i < j) ->
  exists c, images_per_image size s = Ok c /\ length c = length (mt_images s) /\
  forall i, (i < length (mt_images s))%nat -> exists others, nth_error c i = Some (Z.of_nat (length others)) /\ NoDup others /\
    forall j, In j others <-> exists x, 0 < size x /\ (In (Z.of_nat i, j, x) (entries s) \/ In (j, Z.of_nat i, x) (entries s)).
Proof.
  intros [Hm W] ND D. unfold images_per_image, entries in *. destruct (mt_matches s) as [m|]; [|contradiction]. clear Hm. set (n := length (mt_images s)).
  eexists. split; [reflexivity|]. split; [rewrite map_length, zrange_length; lia|]. intros i Hi.
  set (es := filter (fun e => touches [Z.of_nat i] e && (0 <? size (snd e)))%bool (coo_entries m)). set (other := fun e : Z * Z * M => if row e =? Z.of_nat i then col e else row e).
  assert (T : forall e, In e es <-> In e (coo_entries m) /\ (row e = Z.of_nat i \/ col e = Z.of_nat i) /\ 0 < size (snd e)).
  { intros e. unfold es. rewrite filter_In, andb_true_iff, Z.ltb_lt. unfold touches. rewrite orb_true_iff, !zmem_In. cbn [In]. intuition. }
  exists (map other es). split; [|split].
  - rewrite nth_error_map. unfold zrange. rewrite nth_error_map. rewrite (nth_error_nth' _ 0%nat) by (rewrite seq_length; lia). cbn [option_map]. rewrite seq_nth by lia. rewrite map_length. do 2 f_equal. unfold image_matches, es. clear.
    change (0 + Z.of_nat (0 + i)) with (Z.of_nat i). induction (coo_entries m) as [|e l IH]; [reflexivity|]. cbn [filter]. destruct (touches [Z.of_nat i] e); cbn [andb]; [|exact IH]. cbn [map filter]. destruct (0 <? size (snd e)); cbn [length]; now rewrite IH.
  - assert (NDe : NoDup es). { apply NoDup_filter. clear -ND. induction (coo_entries m) as [|e l IH]; [constructor|]. cbn in ND. inversion ND as [|? ? N ND']; subst. constructor; [|now apply IH]. intros Q. apply N. now apply in_map. }
    apply map_NoDup; [|exact NDe]. intros [[r c] x] [[r' c'] x'] I1 I2 E. apply T in I1 as (J1 & A1 & _). apply T in I2 as (J2 & A2 & _). pose proof (D _ _ _ J1). pose proof (D _ _ _ J2). unfold other, row, col in *. cbn [fst snd] in *.
    assert (r = r' /\ c = c') as [<- <-]. { destruct (Z.eqb_spec r (Z.of_nat i)), (Z.eqb_spec r' (Z.of_nat i)); lia. }
    f_equal. clear -ND J1 J2. induction (coo_entries m) as [|e l IH]; [contradiction|]. cbn in ND. inversion ND as [|? ? N ND']; subst. destruct J1 as [->|J1], J2 as [J2|J2]; [congruence| | |now apply IH].
    + exfalso. apply N. apply (in_map fst) in J2. exact J2.
    + subst e. exfalso. apply N. apply (in_map fst) in J1. exact J1.
  - intros j. rewrite in_map_iff. split.
    + intros ([[r c] x] & <- & Ie). apply T in Ie as (Ie & A & S). exists x. split; [exact S|]. unfold other, row, col in *. cbn [fst snd] in *. destruct (Z.eqb_spec r (Z.of_nat i)) as [->|]; [now left|]. destruct A as [?| ->]; [contradiction|now right].
    + intros (x & S & [Q|Q]).
      * exists (Z.of_nat i, j, x). split; [unfold other, row, col; cbn; now rewrite Z.eqb_refl|]. apply T. unfold row, col; cbn. auto.
      * exists (j, Z.of_nat i, x). split; [|apply T; unfold row, col; cbn; auto]. unfold other, row, col; cbn. pose proof (D _ _ _ Q). destruct (Z.eqb_spec j (Z.of_nat i)); [lia|reflexivity].
Qed.
(** Breaks: the images, except the last, that no match starts from. *)
Theorem match_breaks_spec {I K M} (s : matcher I K M) : mt_matches s <> None ->
  exists b, match_breaks 0 s = Ok b /\ StronglySorted Z.lt b /\ forall i, In i b <-> 0 <= i < Z.of_nat (length (mt_images s)) - 1 /\ forall j x, ~ In (i, j, x) (entries s).
Proof.
  intros Hm. unfold match_breaks, entries. destruct (mt_matches s) as [m|]; [|contradiction]. eexists. split; [reflexivity|]. split; [apply zfilter_sorted, zrange_sorted|]. intros i. rewrite filter_In, zrange_In, negb_true_iff, zmem_false, unique_In, in_map_iff. split.
  - intros [A B]. split; [exact A|]. intros j x Q. apply B. exists (i, j, x). auto.
  - intros [A B]. split; [exact A|]. intros ([[r c] x] & E & Q). unfold row in E. cbn in E. subst r. now apply (B c x).
Qed.
(** With min_matches the call fails as soon as matches start from two different images. *)
Theorem match_breaks_min_refuted {I K M} (s : matcher I K M) k i j i' j' x x' : well_formed s -> (forall i j x, In (i, j, x) (entries s) -> i < j) ->
  In (i, j, x) (entries s) -> In (i', j', x') (entries s) -> i <> i' -> k <> 0 -> match_breaks k s = Err ValueError.
Proof.
  intros [Hm W] D I1 I2 N Hk. unfold match_breaks, entries in *. destruct (mt_matches s) as [m|]; [|contradiction]. rewrite (proj2 (Z.eqb_neq _ _) Hk). set (n := length (mt_images s)). set (starts := unique (map row (coo_entries m))).
  assert (S1 : In i starts) by (apply unique_In; apply (in_map row) in I1; exact I1). assert (S2 : In i' starts) by (apply unique_In; apply (in_map row) in I2; exact I2).
  assert (NDs : NoDup starts) by apply sorted_NoDup, unique_sorted.
  assert (Inc : forall y, In y starts -> 0 <= y < Z.of_nat n - 1). { intros y Q. apply unique_In, in_map_iff in Q as ([[r c] z] & <- & Q). pose proof (D _ _ _ Q). apply W in Q as [A B]. apply image_at_some in A, B. unfold row; cbn in *. fold n in A, B. lia. }
  assert (Le : (length starts <= n - 1)%nat). { replace (n - 1)%nat with (length (zrange 0 (Z.of_nat n - 1))) by (rewrite zrange_length; lia). apply NoDup_incl_length; [exact NDs|]. intros y Q. apply zrange_In. apply Inc in Q. lia. }
  assert (Ge : (2 <= length starts)%nat). { destruct starts as [|a [|b l]]; [contradiction| |cbn; lia]. destruct S1 as [<-|[]], S2 as [<-|[]]. contradiction. }
  set (counts := map _ starts). set (mins := map _ (zrange 0 (Z.of_nat n))). assert (Lc : length counts = length starts) by apply map_length. assert (Lm : length mins = n) by (unfold mins; rewrite map_length, zrange_length; lia).
  destruct counts as [|c1 [|c2 counts]]; [cbn in Lc; lia|cbn in Lc; lia|]. destruct mins as [|m1 [|m2 mins]]; [cbn in Lm; lia|cbn in Lm; lia|]. destruct (Nat.eqb_spec (length (c1 :: c2 :: counts)) (length (m1 :: m2 :: mins))); [lia|reflexivity].
Qed.
Lemma zinsert_In x a l : In x (zinsert a l) <-> x = a \/ In x l.
Proof. induction l as [|b l IH]; cbn [zinsert]; [cbn; intuition|]. destruct (a <=? b); cbn [In]; [intuition|]. rewrite IH. cbn [In]. intuition. Qed.
Lemma zsort_In x l : In x (zsort l) <-> In x l.
Proof. induction l as [|a l IH]; [reflexivity|]. cbn [zsort fold_right]. rewrite zinsert_In. fold (zsort l). rewrite IH. cbn [In]. intuition. Qed.
Lemma zsort_sorted l : Sorted Z.le (zsort l).
Proof.
  induction l as [|a l IH]; [constructor|]. cbn [zsort fold_right]. fold (zsort l). induction IH as [|b r S IH H]; cbn [zinsert]; [repeat constructor|]. destruct (Z.leb_spec a b); [repeat constructor; auto|].
  constructor; [exact IH|]. destruct r as [|c r]; cbn [zinsert]; [constructor; lia|]. inversion H; subst. destruct (a <=? c); constructor; lia.
Qed.
(** If all c matches start from one image, c is compared with the limit of every image: the result lists, ascending, the images without matches and those with c below both min_matches and the number of images from there on. *)
Theorem match_breaks_min_single {I K M} (s : matcher I K M) k i : mt_matches s <> None -> entries s <> [] -> (forall r c x, In (r, c, x) (entries s) -> r = i) -> k <> 0 ->
  exists b, match_breaks k s = Ok b /\ Sorted Z.le b /\ forall x, In x b <-> (0 <= x < Z.of_nat (length (mt_images s)) - 1 /\ x <> i) \/
    (0 <= x < Z.of_nat (length (mt_images s)) /\ Z.of_nat (length (entries s)) < k /\ Z.of_nat (length (entries s)) < Z.of_nat (length (mt_images s)) - x).
Proof.
  intros Hm Ne All Hk. unfold match_breaks, entries in *. destruct (mt_matches s) as [m|]; [|contradiction]. rewrite (proj2 (Z.eqb_neq _ _) Hk). set (n := Z.of_nat (length (mt_images s))).
  assert (St : forall x, In x (unique (map row (coo_entries m))) <-> x = i).
  { intros x. rewrite unique_In, in_map_iff. split.
    - intros ([[r c] y] & <- & Q). exact (All r c y Q).
    - intros ->. destruct (coo_entries m) as [|[[r c] y] l]; [contradiction|]. exists (r, c, y). split; [apply (All r c y); now left|now left]. }
  assert (E : unique (map row (coo_entries m)) = [i]).
  { pose proof (sorted_NoDup _ (unique_sorted (map row (coo_entries m)))) as ND. destruct (unique (map row (coo_entries m))) as [|a [|b l]]; [exfalso; exact (proj2 (St i) eq_refl)|f_equal; apply St; now left|].
    exfalso. assert (a = i) by (apply St; now left). assert (b = i) by (apply St; right; now left). subst. inversion ND as [|? ? N _]. apply N. now left. }
  rewrite E. cbn [map]. assert (C : filter (fun e => row e =? i) (coo_entries m) = coo_entries m).
  { clear St E Ne. induction (coo_entries m) as [|[[r c] y] l IH]; [reflexivity|]. cbn [filter]. rewrite (All r c y (or_introl eq_refl)) at 1. unfold row at 1. cbn [fst]. rewrite Z.eqb_refl, IH; [reflexivity|]. intros r' c' y' Q. apply (All r' c' y'). now right. }
  rewrite C. cbn [bind]. set (c := Z.of_nat (length (coo_entries m))). eexists. split; [reflexivity|]. split; [apply zsort_sorted|]. intros x. rewrite zsort_In, in_app_iff, filter_In, zrange_In, negb_true_iff, zmem_false.
  assert (F : forall l : list Z, map fst (filter snd (combine l (map (fun x0 => c <? x0) (map (fun i0 => Z.min k (n - i0)) l)))) = filter (fun x => c <? Z.min k (n - x)) l).
  { clear. induction l as [|a l IH]; [reflexivity|]. cbn [map combine filter snd]. destruct (c <? Z.min k (n - a)); cbn [map fst]; now rewrite IH. }
  rewrite F, filter_In, zrange_In, Z.ltb_lt. assert (D : ~ In x [i] <-> x <> i) by (split; [intros Q W; apply Q; left; now symmetry|intros Q [W|[]]; now apply Q]). rewrite D. clear. split; (intros [?|?]; [left|right]; lia).
Qed.
Example match_breaks_single_ex : match_breaks 5 (mk_matcher (K := unit) [100; 101; 102; 103; 104] None (Some (mk_coo [(0, 1, 7); (0, 2, 8)] (1, 5)))) = Ok [0; 1; 1; 2; 2; 3].
Proof. reflexivity. Qed.
Example match_breaks_ex : match_breaks 0 ex5 = Ok [1; 3] /\ match_breaks 1 ex5 = Err ValueError /\ matches_per_image (fun x => x) ex5 = Ok [15; 7; 17; 0; 9] /\ images_per_image (fun x => x) ex5 = Ok [2; 1; 2; 0; 1].
Proof. repeat split. Qed.
