From Verif Require Import Base BaseLemmas HelpersModel LineModel LineSpec.
From Coq Require Import Permutation Sorted.
Open Scope R_scope.

(** the segment that holds x (x0 <= x), if it is before the last position *)
Fixpoint seg (x x0 : R) (xs : list R) : option nat :=
  match xs with [] => None | x1 :: r => if Rleb x1 x then option_map S (seg x x1 r) else Some 0%nat end.
Lemma interp_in_seg xs : forall fs x x0 f0, length xs = length fs -> x0 <= x ->
  interp_in x x0 f0 (combine xs fs) = match seg x x0 xs with
  | Some j => nth j (f0 :: fs) 0 + (nth (S j) (f0 :: fs) 0 - nth j (f0 :: fs) 0) / (nth (S j) (x0 :: xs) 0 - nth j (x0 :: xs) 0) * (x - nth j (x0 :: xs) 0)
  | None => last (f0 :: fs) 0 end.
Proof.
  induction xs as [|x1 xs IH]; intros [|f1 fs] x x0 f0 L H; try discriminate L; [reflexivity|].
  cbn [combine interp_in seg]. destruct (Rleb x1 x) eqn:E.
  - apply Rleb_true in E. rewrite IH by (cbn in L; first [lia|exact E]). destruct (seg x x1 xs); reflexivity.
  - cbn [nth]. destruct (Reqb x x0) eqn:Q; [|reflexivity]. apply Reqb_true in Q. subst x0. replace (x - x) with 0 by ring. ring.
Qed.
Lemma seg_some xs : forall x x0 j, x0 <= x -> seg x x0 xs = Some j -> (j < length xs)%nat /\ nth j (x0 :: xs) 0 <= x < nth (S j) (x0 :: xs) 0.
Proof.
  induction xs as [|x1 xs IH]; intros x x0 j H E; [discriminate|]. cbn [seg] in E. destruct (Rleb x1 x) eqn:Q.
  - apply Rleb_true in Q. destruct (seg x x1 xs) as [k|] eqn:K; [|discriminate]. injection E as <-. destruct (IH _ _ _ Q K) as [L B]. split; [cbn; lia|exact B].
  - apply Rleb_false in Q. injection E as <-. cbn. split; [lia|lra].
Qed.
Lemma seg_none xs : forall x x0, x0 <= x -> seg x x0 xs = None -> last (x0 :: xs) 0 <= x.
Proof.
  induction xs as [|x1 xs IH]; intros x x0 H E; [exact H|]. cbn [seg] in E. destruct (Rleb x1 x) eqn:Q; [|discriminate].
  apply Rleb_true in Q. destruct (seg x x1 xs) eqn:K; [discriminate|]. apply (IH _ _ Q K).
Qed.

(** the row of values at [t] *)
Definition at_row (d : nat) (x : list R) (m : list row) (t : R) : row :=
  match x with
  | [] => []
  | x0 :: xs => map (fun i =>
     if Rltb t x0 then nth 0 (column i m) 0 else
     match seg t x0 xs with
     | Some j => nth j (column i m) 0 + (nth (S j) (column i m) 0 - nth j (column i m) 0) / (nth (S j) x 0 - nth j x 0) * (t - nth j x 0)
     | None => last (column i m) 0 end) (seq 0 d)
  end.
Lemma interp_rows_ok d x m xi : length x = length m -> x <> [] -> interp_rows d x m xi = Ok (map (at_row d x m) xi).
Proof.
  intros L N. unfold interp_rows. rewrite L, Nat.eqb_refl. cbn [negb]. apply mapM_all_ok. intros t _. unfold at_row. destruct x as [|x0 xs]; [contradiction|].
  apply mapM_all_ok. intros i _. unfold np_interp. destruct m as [|r0 rs]; [discriminate|]. cbn [column map combine]. destruct (Rltb t x0) eqn:Q; [reflexivity|].
  apply Rltb_false in Q. rewrite interp_in_seg; [reflexivity| |lra]. rewrite map_length. exact (f_equal pred L).
Qed.
Lemma column_nth i m j : (j < length m)%nat -> nth j (column i m) 0 = nth i (nth j m []) 0.
Proof. intros H. unfold column. rewrite (nth_indep _ 0 (nth i [] 0)) by (rewrite map_length; exact H). rewrite (map_nth (fun r => nth i r 0)). reflexivity. Qed.
Lemma last_nth {A} (l : list A) d : last l d = nth (length l - 1) l d.
Proof. induction l as [|a [|b l] IH]; [reflexivity|reflexivity|]. cbn [last]. change (last (b :: l) d = nth (length (a :: b :: l) - 1) (a :: b :: l) d). rewrite IH. cbn [length]. replace (S (S (length l)) - 1)%nat with (S (S (length l) - 1)) by lia. reflexivity. Qed.
Lemma at_row_length d x m t : x <> [] -> length (at_row d x m t) = d.
Proof. destruct x; [contradiction|]. intros _. unfold at_row. rewrite map_length, seq_length. reflexivity. Qed.
Lemma row_ext (d : nat) (a b : row) : length a = d -> length b = d -> (forall i, (i < d)%nat -> nth i a 0 = nth i b 0) -> a = b.
Proof. intros A B H. apply (nth_ext _ _ 0 0); [congruence|]. intros i Hi. apply H. lia. Qed.
Lemma nth_map_seq {A} (f : nat -> A) n i d : (i < n)%nat -> nth i (map f (seq 0 n)) d = f i.
Proof. intros H. rewrite (nth_indep _ d (f 0%nat)) by (rewrite map_length, seq_length; exact H). rewrite map_nth, seq_nth by exact H. reflexivity. Qed.
Lemma at_row_nth d x0 xs m t i : (i < d)%nat -> nth i (at_row d (x0 :: xs) m t) 0 =
  if Rltb t x0 then nth 0 (column i m) 0 else
  match seg t x0 xs with
  | Some j => nth j (column i m) 0 + (nth (S j) (column i m) 0 - nth j (column i m) 0) / (nth (S j) (x0 :: xs) 0 - nth j (x0 :: xs) 0) * (t - nth j (x0 :: xs) 0)
  | None => last (column i m) 0 end.
Proof. intros H. unfold at_row. rewrite nth_map_seq by exact H. reflexivity. Qed.

(** ** Sorting a falling list *)
Lemma sorted_unique (a b : list R) : StronglySorted Rle a -> StronglySorted Rle b -> Permutation a b -> a = b.
Proof.
  revert b; induction a as [|x a IH]; intros b Ha Hb P; [apply Permutation_nil in P; congruence|].
  destruct b as [|y b]; [apply Permutation_sym, Permutation_nil in P; discriminate|].
  inversion Ha as [|? ? Sa Fa]; subst. inversion Hb as [|? ? Sb Fb]; subst. rewrite Forall_forall in Fa, Fb.
  assert (E : x = y).
  { assert (Ix : In x (y :: b)) by (apply (Permutation_in _ P); left; reflexivity). assert (Iy : In y (x :: a)) by (apply (Permutation_in _ (Permutation_sym P)); left; reflexivity).
    destruct Ix as [->|Ix]; [reflexivity|]. destruct Iy as [->|Iy]; [reflexivity|]. apply Fb in Ix. apply Fa in Iy. lra. }
  subst y. f_equal. apply IH; try assumption. apply (Permutation_cons_inv P).
Qed.
Lemma map_nth_seq {A} (l : list A) d : map (fun k => nth k l d) (seq 0 (length l)) = l.
Proof.
  apply (nth_ext _ _ d d); [rewrite map_length, seq_length; reflexivity|]. intros i Hi. rewrite map_length, seq_length in Hi. exact (nth_map_seq (fun k => nth k l d) _ _ d Hi).
Qed.
Lemma rising_sorted x : rising x -> StronglySorted Rle x.
Proof.
  intros H. induction x as [|a x IH]; [constructor|]. constructor.
  - apply IH. intros i j Hij. apply (H (S i) (S j)). cbn. lia.
  - apply Forall_forall. intros y Hy. apply (In_nth _ _ 0) in Hy as (k & Hk & <-). apply (H 0%nat (S k)). cbn. lia.
Qed.
Lemma rev_rising x : falling x -> rising (rev x).
Proof. intros H i j Hij. rewrite rev_length in Hij. rewrite !rev_nth by lia. left. apply H. lia. Qed.
Lemma argsort_falling argsort x : sorts argsort -> falling x -> argsort x = rev (seq 0 (length x)).
Proof.
  intros So F. destruct (So x) as [P S].
  assert (E : map (fun k => nth k x 0) (argsort x) = map (fun k => nth k x 0) (rev (seq 0 (length x)))).
  { rewrite map_rev, map_nth_seq. apply sorted_unique; [exact S|apply rising_sorted, rev_rising, F|].
    rewrite <- Permutation_rev. rewrite P, map_nth_seq. reflexivity. }
  assert (I : forall k, In k (argsort x) -> (k < length x)%nat) by (intros k Hk; apply (Permutation_in _ P) in Hk; apply in_seq in Hk; lia).
  assert (J : forall k, In k (rev (seq 0 (length x))) -> (k < length x)%nat) by (intros k Hk; apply in_rev in Hk; apply in_seq in Hk; lia).
  revert E I J. generalize (rev (seq 0 (length x))), (argsort x). intros a b. revert a. induction b as [|k b IH]; intros [|q a] E I J; try discriminate E; [reflexivity|].
  injection E as Ek E. f_equal; [|apply IH; [exact E|intros; apply I; right; assumption|intros; apply J; right; assumption]].
  pose proof (I k (or_introl eq_refl)). pose proof (J q (or_introl eq_refl)). destruct (Nat.lt_trichotomy k q) as [L|[L|L]]; [|exact L|];
  [pose proof (F k q ltac:(lia))|pose proof (F q k ltac:(lia))]; lra.
Qed.
Lemma map_nth_rev {A} (l : list A) d : map (fun k => nth k l d) (rev (seq 0 (length l))) = rev l.
Proof. rewrite map_rev, map_nth_seq. reflexivity. Qed.
