(** Proofs about Observer.subset and Observer.split. *)
From Verif Require Import Base BaseLemmas HelpersModel HelpersSpec NearestProofs TimeModel TimeSpec TimeProofs.
From Coq Require Import Sorting.Sorted.
Open Scope Z_scope.

Definition before (ts : list Z) (s : Z) : nat := length (filter (fun t => t <? s) ts).
Lemma filter_all_false {A} (f : A -> bool) l : Forall (fun x => f x = false) l -> filter f l = [].
Proof. induction 1 as [|x l E F IH]; [reflexivity|]. cbn. rewrite E. exact IH. Qed.
Lemma filter_all_true {A} (f : A -> bool) l : Forall (fun x => f x = true) l -> filter f l = l.
Proof. induction 1 as [|x l E F IH]; [reflexivity|]. cbn. rewrite E, IH. reflexivity. Qed.
Lemma before_gt ts s : Forall (fun t => s <= t) ts -> before ts s = 0%nat.
Proof. intros F. unfold before. rewrite filter_all_false; [reflexivity|]. eapply Forall_impl; [|exact F]. cbn. intros. lia. Qed.
Lemma upto_lt ts e : Forall (fun t => e < t) ts -> upto ts e = 0%nat.
Proof. intros F. unfold upto. rewrite filter_all_false; [reflexivity|]. eapply Forall_impl; [|exact F]. cbn. intros. lia. Qed.
Lemma upto_cons t ts e : upto (t :: ts) e = ((if (t <=? e)%Z then 1 else 0) + upto ts e)%nat.
Proof. unfold upto. cbn. destruct (t <=? e); reflexivity. Qed.
Lemma before_cons t ts e : before (t :: ts) e = ((if (t <? e)%Z then 1 else 0) + before ts e)%nat.
Proof. unfold before. cbn. destruct (t <? e); reflexivity. Qed.
Lemma mask_false {A} (l : list A) ts f : Forall (fun t : Z => f t = false) ts -> mask_list l (map f ts) = [].
Proof. intros F. revert l. induction F as [|t ts E F IH]; intros [|x l]; try reflexivity. cbn [map]. rewrite mask_cons, E. apply IH. Qed.
Lemma mask_slice {A} ts s e : increasing ts -> forall l : list A, length l = length ts ->
  mask_list l (map (fun t => (s <=? t) && (t <=? e)) ts) = slice (before ts s) (upto ts e) l.
Proof.
  unfold increasing, slice. induction 1 as [|t ts S IH F]; intros [|x l] L; cbn in L; try discriminate; [reflexivity|].
  injection L as L. cbn [map]. rewrite mask_cons, (IH l L), upto_cons, before_cons. 
  destruct (Z.leb_spec s t) as [H1|H1], (Z.leb_spec t e) as [H2|H2]; cbn [andb]; (destruct (Z.ltb_spec t s) as [H3|H3]; try lia).
  - rewrite (before_gt ts s) by (eapply Forall_impl; [|exact F]; cbn; intros; lia). cbn. rewrite Nat.sub_0_r. reflexivity.
  - rewrite (upto_lt ts e) by (eapply Forall_impl; [|exact F]; cbn; intros; lia). reflexivity.
  - reflexivity.
  - rewrite (upto_lt ts e) by (eapply Forall_impl; [|exact F]; cbn; intros; lia). reflexivity.
Qed.
Lemma slice_length {A} a b (l : list A) : (b <= length l)%nat -> length (slice a b l) = (b - a)%nat.
Proof. intros H. unfold slice. rewrite firstn_length, skipn_length. lia. Qed.
Lemma slice_map {A B} (f : A -> B) a b l : map f (slice a b l) = slice a b (map f l).
Proof. unfold slice. rewrite <- firstn_map. f_equal. revert l. induction a as [|a IH]; intros [|x l]; cbn; auto. Qed.
Lemma nth_error_firstn_lt {A} n (l : list A) k : (k < n)%nat -> nth_error (firstn n l) k = nth_error l k.
Proof. revert l k. induction n as [|n IH]; intros [|x l] [|k] H; try lia; try reflexivity. cbn. apply IH. lia. Qed.
Lemma nth_error_slice {A} a b (l : list A) k : (k < b - a)%nat -> nth_error (slice a b l) k = nth_error l (a + k).
Proof.
  intros H. unfold slice. rewrite nth_error_firstn_lt by exact H. clear H. revert l. induction a as [|a IH]; intros l; [reflexivity|]. destruct l as [|x l]; cbn; [destruct k; reflexivity|apply IH].
Qed.
Lemma slice_sorted a b (l : list Z) : increasing l -> increasing (slice a b l).
Proof.
  unfold increasing, slice. intros S. assert (Q : StronglySorted Z.lt (skipn a l)).
  { revert a. induction S as [|x l S IH F]; intros [|a]; cbn; try constructor; auto. }
  generalize (b - a)%nat. induction Q as [|x m S' IH F]; intros [|n]; cbn; try constructor; auto. rewrite Forall_forall in *. intros y Hy. apply F. clear -Hy. revert m Hy. induction n as [|n IH]; intros [|z m]; cbn; try tauto. intros [H|H]; auto.
Qed.
Lemma upto_le ts e : (upto ts e <= length ts)%nat.
Proof. unfold upto. induction ts as [|t ts IH]; cbn; [lia|]. destruct (t <=? e); cbn; lia. Qed.

Lemma before_nth ts k t : increasing ts -> nth_error ts k = Some t -> before ts t = k /\ before ts (t + 1) = S k.
Proof.
  intros S. revert k. unfold increasing in S. induction S as [|x ts S IH F]; intros [|k] E; cbn in E; try discriminate.
  - injection E as ->. rewrite !before_cons, !before_gt; [|eapply Forall_impl; [|exact F]; cbn; intros; lia|eapply Forall_impl; [|exact F]; cbn; intros; lia].
    destruct (Z.ltb_spec t t); [lia|]. destruct (Z.ltb_spec t (t + 1)); lia.
  - destruct (IH k E) as [H1 H2]. rewrite !before_cons, H1, H2. rewrite Forall_forall in F. specialize (F t (nth_error_In _ _ E)).
    destruct (Z.ltb_spec x t); [|lia]. destruct (Z.ltb_spec x (t + 1)); lia.
Qed.
(** a well-formed observer *)
Definition valid_observer (o : observer) : Prop := Observer (ob_images o) = Ok o.
Lemma valid_facts o : valid_observer o -> (2 <= length (ob_images o))%nat /\ map im_time (ob_images o) = map Some (ob_times o) /\ increasing (ob_times o) /\ length (ob_times o) = length (ob_images o).
Proof.
  intros V. destruct (Observer_spec (ob_images o)) as (_ & H & _). destruct (H o V) as (_ & L & M & S). split; [exact L|]. split; [exact M|]. split; [exact S|].
  apply (f_equal (@length _)) in M. rewrite !map_length in M. lia.
Qed.
Definition part (o : observer) (ab : nat * nat) : observer := mk_observer (slice (fst ab) (snd ab) (ob_images o)) (slice (fst ab) (snd ab) (ob_times o)).
Lemma before_upto ts s e : e < s -> (upto ts e <= before ts s)%nat.
Proof. intros H. unfold upto, before. induction ts as [|t ts IH]; cbn; [lia|]. destruct (Z.leb_spec t e), (Z.ltb_spec t s); cbn; lia. Qed.
Lemma subset_spec o s e : valid_observer o -> let a := before (ob_times o) s in let b := upto (ob_times o) e in
  observer_subset o s e = if (a + 2 <=? b)%nat then Ok (part o (a, b)) else Err ValueError.
Proof.
  intros V a b. destruct (valid_facts o V) as (L & M & S & Ln). unfold observer_subset.
  assert (Nt : ob_times o <> []) by (intros E; rewrite E in Ln; cbn in Ln; lia).
  pose proof (select_datetimes_nosnap (ob_times o) (Some s) (Some e) None 0 Nt) as Q. cbv zeta in Q. rewrite Q. clear Q.
  destruct (Z.ltb_spec e s) as [H|H].
  - cbn [bind]. pose proof (before_upto (ob_times o) s e H). fold a b in H0. destruct (Nat.leb_spec (a + 2) b); [lia|reflexivity].
  - cbn [bind]. unfold opt_ge, opt_le. rewrite mask_slice by auto. fold a b.
    pose proof (upto_le (ob_times o) e) as Ub. fold b in Ub.
    destruct (Nat.leb_spec (a + 2) b) as [G|G].
    + destruct (Observer_spec (slice a b (ob_images o))) as (H1 & _). apply (H1 (slice a b (ob_times o))).
      * rewrite slice_length by lia. lia.
      * rewrite !slice_map, M. reflexivity.
      * apply slice_sorted, S.
    + unfold Observer. rewrite slice_length by lia. destruct (Nat.ltb_spec (b - a) 2); [reflexivity|lia].
Qed.
Lemma py_get_neg {A} (l : list A) k : (1 <= k <= length l)%nat -> py_get l (- Z.of_nat k) = match nth_error l (length l - k) with Some a => Ok a | None => Err IndexError end.
Proof.
  intros H. unfold py_get, py_index. destruct (Z.ltb_spec (- Z.of_nat k) (- Z.of_nat (length l))); [lia|]. destruct (Z.ltb_spec (- Z.of_nat k) 0); [|lia]. cbn [bind].
  replace (Z.to_nat (Z.of_nat (length l) + - Z.of_nat k)) with (length l - k)%nat by lia. reflexivity.
Qed.
Definition big (ab : nat * nat) : bool := (fst ab + 2 <=? snd ab)%nat.
Lemma split_loop_spec o ov : valid_observer o -> forall ends start,
  split_loop o ov start ends = let c := segments (ob_times o) ov (before (ob_times o) start) ends in if forallb big c then Ok (map (part o) c) else Err ValueError.
Proof.
  intros V. destruct (valid_facts o V) as (L & M & S & Ln). induction ends as [|e ends IH]; intros start; [reflexivity|].
  cbn [split_loop segments]. rewrite (subset_spec o start e V). set (a := before (ob_times o) start). set (b := upto (ob_times o) e).
  cbv zeta. cbn [forallb map]. unfold big at 1. cbn [fst snd]. destruct (Nat.leb_spec (a + 2) b) as [G|G]; [|reflexivity]. cbn [bind andb].
  pose proof (upto_le (ob_times o) e) as Ub. fold b in Ub.
  assert (Lp : length (ob_times (part o (a, b))) = (b - a)%nat) by (cbn; apply slice_length; lia).
  assert (Next : exists st, match ov with
      | O => let* t := py_get (ob_times (part o (a, b))) (-1) in Ok (t + 1)
      | _ => let lag := Nat.min ov (length (ob_times (part o (a, b)))) in py_get (ob_times (part o (a, b))) (- Z.of_nat lag)
      end = Ok st /\ before (ob_times o) st = (b - Nat.min ov (b - a))%nat).
  { assert (Get : forall k, (1 <= k <= b - a)%nat -> exists t, py_get (ob_times (part o (a, b))) (- Z.of_nat k) = Ok t /\ nth_error (ob_times o) (b - k) = Some t).
    { intros k K. rewrite py_get_neg by lia. rewrite Lp. cbn [part ob_times fst snd]. rewrite nth_error_slice by lia.
      replace (a + (b - a - k))%nat with (b - k)%nat by lia. destruct (nth_error (ob_times o) (b - k)) as [t|] eqn:E; [eauto|]. apply nth_error_None in E. lia. }
    destruct ov as [|ov].
    - destruct (Get 1%nat ltac:(lia)) as (t & E1 & E2). change (- Z.of_nat 1) with (-1) in E1. rewrite E1. cbn [bind]. eexists. split; [reflexivity|].
      destruct (before_nth _ _ _ S E2) as [_ B]. rewrite B. cbn. lia.
    - rewrite Lp. destruct (Get (Nat.min (Datatypes.S ov) (b - a)) ltac:(lia)) as (t & E1 & E2). exists t. split; [exact E1|]. destruct (before_nth _ _ _ S E2) as [B _]. exact B. }
  destruct Next as (st & E & B). cbv zeta in E. rewrite E. cbn [bind]. rewrite IH, B. cbv zeta. destruct (forallb big _); reflexivity.
Qed.
