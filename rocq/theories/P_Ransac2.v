(** Property C52, continued: the samples of ransac. *)
From Coq Require Import Permutation Sorting.Sorted.
From Verif Require Import Base BaseLemmas RansacModel P_Ransac.
Open Scope nat_scope.

(** Number of ways to choose k of n: Pascal's triangle. *)
Fixpoint binom (n k : nat) : nat := match n, k with _, 0 => 1 | 0, S _ => 0 | S n, S k => binom n k + binom n (S k) end.
Lemma binom_0 n : binom n 0 = 1. Proof. destruct n; reflexivity. Qed.
Lemma binom_gt n : forall k, n < k -> binom n k = 0.
Proof. induction n as [|n IH]; intros [|k] H; try lia; [reflexivity|]. cbn [binom]. rewrite !IH by lia. reflexivity. Qed.
Lemma binom_pos n : forall k, k <= n -> 1 <= binom n k.
Proof. induction n as [|n IH]; intros [|k] H; cbn [binom]; try lia. specialize (IH k). lia. Qed.
Lemma binom_fact n : forall k, k <= n -> binom n k * (fact k * fact (n - k)) = fact n.
Proof.
  induction n as [|n IH]; intros [|k] H; try lia.
  - reflexivity.
  - rewrite binom_0, Nat.sub_0_r. cbn [fact]. lia.
  - cbn [binom]. rewrite Nat.sub_succ. rewrite Nat.mul_add_distr_r. pose proof (IH k ltac:(lia)) as H1.
    destruct (Nat.eq_dec k n) as [->|N].
    + rewrite (binom_gt n (S n)) by lia. rewrite Nat.sub_diag in *. change (fact (S n)) with (S n * fact n). nia.
    + pose proof (IH (S k) ltac:(lia)) as H2. replace (n - k) with (S (n - S k)) in * by lia. change (fact (S (n - S k))) with (S (n - S k) * fact (n - S k)) in *. change (fact (S n)) with (S n * fact n). change (fact (S k)) with (S k * fact k) in *.
      replace (binom n k * (S k * fact k * (S (n - S k) * fact (n - S k)))) with (S k * (binom n k * (fact k * (S (n - S k) * fact (n - S k))))) by ring. rewrite H1.
      replace (binom n (S k) * (S k * fact k * (S (n - S k) * fact (n - S k)))) with (S (n - S k) * (binom n (S k) * (S k * fact k * fact (n - S k)))) by ring. rewrite H2. rewrite <- Nat.mul_add_distr_r. f_equal. lia.
Qed.
Lemma binom_ge2 n k : 1 <= k -> k < n -> 2 <= binom n k.
Proof. destruct n as [|n], k as [|k]; try lia. intros _ H. cbn [binom]. pose proof (binom_pos n k). pose proof (binom_pos n (S k)). lia. Qed.
Lemma log_binom size n : n <= size -> log_combinations size n = ln (INR (binom size n)).
Proof.
  intros H. unfold log_combinations. rewrite <- (binom_fact size n H). rewrite !mult_INR.
  assert (P : forall k, (0 < INR (fact k))%R) by (intros k; apply lt_0_INR, lt_O_fact). assert (B : (0 < INR (binom size n))%R) by (apply lt_0_INR; pose proof (binom_pos size n H); lia).
  rewrite ln_mult, ln_mult; auto using Rmult_lt_0_compat. ring.
Qed.
Lemma limit_eq size n it : 1 <= n -> n < size -> limit size n it = Z.min it (Z.of_nat (binom size n)).
Proof.
  intros H1 H2. unfold limit. rewrite log_binom by lia. pose proof (binom_ge2 size n H1 H2) as B. assert (BR : (1 < INR (binom size n))%R) by (apply lt_1_INR; lia).
  unfold Reqb. destruct (Req_EM_T _ _) as [E|_]; [exfalso; pose proof (ln_increasing 1 _ Rlt_0_1 BR) as Q; rewrite ln_1, E in Q; lra|]. rewrite exp_ln by lra. f_equal. rewrite INR_IZR_INZ. apply Rfloor_imp. rewrite <- plus_IZR. split; [apply IZR_le; lia|apply IZR_lt; lia].
Qed.

(** all sublists of length k *)
Fixpoint choose (k : nat) (l : list nat) : list (list nat) :=
  match k, l with 0, _ => [[]] | S _, [] => [] | S k', x :: r => map (cons x) (choose k' r) ++ choose k r end.
Lemma choose_length l : forall k, length (choose k l) = binom (length l) k.
Proof. induction l as [|x l IH]; intros [|k]; cbn [choose length binom]; try reflexivity. rewrite app_length, map_length, !IH. reflexivity. Qed.
Lemma filter_choose (f : nat -> bool) l : In (filter f l) (choose (length (filter f l)) l).
Proof.
  induction l as [|x l IH]; cbn [filter]; [now left|]. destruct (f x); cbn [length choose].
  - apply in_or_app. left. now apply in_map.
  - destruct (length (filter f l)) eqn:E; [|apply in_or_app; right; exact IH]. apply length_zero_iff_nil in E. rewrite E. now left.
Qed.
Definition canon (size : nat) (s : list nat) : list nat := filter (fun i => mem i s) (seq 0 size).
Definition sample_ok (size n : nat) (s : list nat) : Prop := length s = n /\ NoDup s /\ Forall (fun i => i < size) s.
Lemma canon_In size s i : Forall (fun i => i < size) s -> In i (canon size s) <-> In i s.
Proof. intros F. unfold canon. rewrite filter_In, in_seq, mem_In. rewrite Forall_forall in F. split; [intros [_ H]; exact H|]. intros H. specialize (F i H). split; [lia|exact H]. Qed.
Lemma canon_choose size n s : sample_ok size n s -> In (canon size s) (choose n (seq 0 size)).
Proof.
  intros (L & N & F). assert (E : length (canon size s) = n).
  { rewrite <- L. apply Permutation_length. apply NoDup_Permutation; [apply NoDup_filter, seq_NoDup|exact N|]. intros i. now apply canon_In. }
  rewrite <- E at 1. apply filter_choose.
Qed.
Lemma same_set_iff s t : same_set s t = true <-> forall i, In i s <-> In i t.
Proof.
  unfold same_set. rewrite andb_true_iff, !forallb_forall. setoid_rewrite mem_In. split; [intros [A B] i; split; auto|]. intros H. split; intros i I; now apply H.
Qed.
Lemma existsb_same s l : existsb (same_set s) l = true <-> exists t, In t l /\ forall i, In i s <-> In i t.
Proof. rewrite existsb_exists. split; intros (t & A & B); exists t; split; auto; now apply same_set_iff. Qed.

Definition distinct_sets (l : list (list nat)) : Prop := forall j k s t, nth_error l j = Some s -> nth_error l k = Some t -> (forall i, In i s <-> In i t) -> j = k.
Lemma distinct_bound size n l : Forall (sample_ok size n) l -> distinct_sets l -> length l <= binom size n.
Proof.
  intros F D. rewrite <- (seq_length size 0), <- choose_length. rewrite <- (map_length (canon size)). apply NoDup_incl_length.
  - rewrite Forall_forall in F. apply NoDup_nth_error. intros j k Hj E. rewrite map_length in Hj. rewrite !nth_error_map in E. destruct (nth_error l j) as [s|] eqn:Ej; [|apply nth_error_None in Ej; lia]. cbn in E.
    destruct (nth_error l k) as [t|] eqn:Ek; [|discriminate]. injection E as E. apply (D j k s t Ej Ek). intros i. destruct (F s (nth_error_In _ _ Ej)) as (_ & _ & F1). destruct (F t (nth_error_In _ _ Ek)) as (_ & _ & F2).
    rewrite <- (canon_In size s i F1), <- (canon_In size t i F2), E. reflexivity.
  - intros c I. apply in_map_iff in I. destruct I as (s & <- & I). apply canon_choose. rewrite Forall_forall in F. now apply F.
Qed.

Lemma NoDup_left (a b : list nat) : NoDup (a ++ b) -> NoDup a.
Proof. induction a as [|x a IH]; intros H; [constructor|]. inversion H; subst. constructor; [intros I; apply H2, in_or_app; now left|now apply IH]. Qed.
Section Generate.
Variables (size n : nat) (order : list nat -> list nat).
Hypothesis O : forall l, Permutation (order l) l.
Hypothesis Hn : n < size.
Lemma sample_of_shuffle sh : Permutation sh (seq 0 size) -> sample_ok size n (order (firstn n sh)) /\ forall i, In i (order (firstn n sh)) <-> In i (firstn n sh).
Proof.
  intros P. assert (I : forall i, In i (order (firstn n sh)) <-> In i (firstn n sh)) by (intros i; split; apply Permutation_in; [apply O|apply Permutation_sym, O]).
  assert (L : length sh = size) by (rewrite (Permutation_length P); apply seq_length).
  split; [|exact I]. split; [|split].
  - rewrite (Permutation_length (O _)), firstn_length. lia.
  - apply (Permutation_NoDup (Permutation_sym (O _))). assert (N : NoDup sh) by (apply (Permutation_NoDup (Permutation_sym P)), seq_NoDup). rewrite <- (firstn_skipn n sh) in N. now apply NoDup_left in N.
  - rewrite Forall_forall. intros i J. apply I in J. assert (Q : In i sh) by (rewrite <- (firstn_skipn n sh); apply in_or_app; now left). apply (Permutation_in _ P) in Q. apply in_seq in Q. lia.
Qed.
Lemma generate_ok lim : forall shuffles samples, Forall (fun sh => Permutation sh (seq 0 size)) shuffles ->
  Forall (sample_ok size n) samples -> distinct_sets samples -> (Z.of_nat (length samples) <= Z.max 0 lim)%Z ->
  let r := generate lim n order samples shuffles in
  Forall (sample_ok size n) (fst r) /\ distinct_sets (fst r) /\ (Z.of_nat (length (fst r)) <= Z.max 0 lim)%Z /\
  (snd r = true -> Z.of_nat (length (fst r)) = Z.max 0 lim) /\
  (snd r = false -> (Z.of_nat (length (fst r)) < lim)%Z /\ (forall s, In s samples -> In s (fst r)) /\ forall sh, In sh shuffles -> exists t, In t (fst r) /\ forall i, In i (firstn n sh) <-> In i t).
Proof.
  induction shuffles as [|sh shuffles IH]; intros samples Fs F D L; cbn [generate].
  - destruct (Z.leb_spec lim (Z.of_nat (length samples))) as [Q|Q]; cbn [fst snd].
    + split; [exact F|]. split; [exact D|]. split; [lia|]. split; [intros _; lia|discriminate].
    + split; [exact F|]. split; [exact D|]. split; [lia|]. split; [discriminate|]. intros _. split; [lia|]. split; [auto|intros ? []].
  - destruct (Z.leb_spec lim (Z.of_nat (length samples))) as [Q|Q]; [cbn; split; [exact F|split; [exact D|split; [lia|split; [intros; lia|discriminate]]]]|].
    inversion Fs as [|? ? P Fr]; subst. destruct (sample_of_shuffle sh P) as [So Si]. cbv zeta. destruct (existsb (same_set (order (firstn n sh))) samples) eqn:E.
    + specialize (IH samples Fr F D L). cbv zeta in IH. destruct IH as (A1 & A2 & A3 & A4 & A5). split; [exact A1|split; [exact A2|split; [exact A3|split; [exact A4|]]]]. intros Q2. destruct (A5 Q2) as (B1 & B2 & B3). split; [exact B1|]. split; [exact B2|].
      intros sh' [<-|I]; [|now apply B3]. apply existsb_same in E. destruct E as (t & T1 & T2). exists t. split; [now apply B2|]. intros i. rewrite <- T2. symmetry. apply Si.
    + assert (D' : distinct_sets (samples ++ [order (firstn n sh)])).
      { assert (Ne : forall t, In t samples -> ~ (forall i, In i (order (firstn n sh)) <-> In i t)). { intros t I Q2. assert (existsb (same_set (order (firstn n sh))) samples = true) by (apply existsb_same; exists t; auto). congruence. }
        assert (Sp : forall j s', nth_error (samples ++ [order (firstn n sh)]) j = Some s' -> (j < length samples)%nat /\ nth_error samples j = Some s' \/ j = length samples /\ s' = order (firstn n sh)).
        { intros j s' Hj. destruct (Nat.lt_ge_cases j (length samples)) as [Lj|Lj]; [left; rewrite nth_error_app1 in Hj by assumption; auto|]. right. rewrite nth_error_app2 in Hj by assumption. destruct (j - length samples)%nat as [|m] eqn:Ej; [|destruct m; discriminate]. injection Hj as <-. split; [lia|reflexivity]. }
        intros j k s t Hj Hk Hi. destruct (Sp j s Hj) as [[_ J]|[-> ->]], (Sp k t Hk) as [[_ K]|[-> ->]].
        - now apply (D j k s t).
        - exfalso. apply (Ne s (nth_error_In _ _ J)). intros i. symmetry. apply Hi.
        - exfalso. now apply (Ne t (nth_error_In _ _ K)).
        - reflexivity. }
      specialize (IH (samples ++ [order (firstn n sh)]) Fr). cbv zeta in IH. destruct IH as (A1 & A2 & A3 & A4 & A5); [apply Forall_app; split; [exact F|repeat constructor; apply So]|exact D'|rewrite app_length; cbn; lia|].
      split; [exact A1|split; [exact A2|split; [exact A3|split; [exact A4|]]]]. intros Q2. destruct (A5 Q2) as (B1 & B2 & B3). split; [exact B1|]. split; [intros s I; apply B2, in_or_app; now left|].
      intros sh' [<-|I]; [|now apply B3]. exists (order (firstn n sh)). split; [apply B2, in_or_app; right; now left|]. intros i. symmetry. apply Si.
Qed.
End Generate.

(** Whatever the shuffles, the samples are sets of [n] different members, no two samples are equal and there are never
    more than [iterations]; once every set has been drawn (and possibly before) the samples end, and at the end there are
    as many as requested or as there are sets. *)
Theorem ransac_samples_distinct : forall n size iterations order shuffles,
  (forall l, Permutation (order l) l) -> Forall (fun sh => Permutation sh (seq 0 size)) shuffles -> 1 <= n ->
  (size <= n -> ransac_samples n size iterations order shuffles = Err ValueError) /\
  (n < size -> exists samples ended, ransac_samples n size iterations order shuffles = Ok (samples, ended) /\
     Forall (sample_ok size n) samples /\ distinct_sets samples /\
     (Z.of_nat (length samples) <= Z.max 0 (Z.min iterations (Z.of_nat (binom size n))))%Z /\
     (ended = true -> Z.of_nat (length samples) = Z.max 0 (Z.min iterations (Z.of_nat (binom size n)))) /\
     ((forall s, sample_ok size n s -> exists sh, In sh shuffles /\ forall i, In i s <-> In i (firstn n sh)) -> ended = true)).
Proof.
  intros n size it order shuffles O F N1. unfold ransac_samples. split; intros H; [now rewrite (proj2 (Nat.leb_le size n) H)|]. rewrite (proj2 (Nat.leb_gt size n) H).
  pose proof (generate_ok size n order O H (limit size n it) shuffles [] F (Forall_nil _)) as G. cbv zeta in G. rewrite (limit_eq size n it N1 H) in *.
  destruct (generate _ n order [] shuffles) as [samples ended]. cbn [fst snd] in G. destruct G as (A1 & A2 & A3 & A4 & A5); [intros [|j] k s t Hj; discriminate|cbn; lia|].
  exists samples, ended. split; [reflexivity|]. split; [exact A1|]. split; [exact A2|]. split; [exact A3|]. split; [exact A4|].
  intros C. destruct ended; [reflexivity|]. exfalso. destruct (A5 eq_refl) as (B1 & _ & B3).
  assert (Le : binom size n <= length samples).
  { rewrite <- (seq_length size 0), <- choose_length. rewrite <- (map_length (canon size) samples).
    assert (Nd : forall l k, NoDup l -> NoDup (choose k l)).
    { induction l as [|x l IH]; intros [|k] Q; cbn [choose]; try (repeat constructor; intros []; fail). inversion Q as [|? ? Q1 Q2]; subst.
      assert (Sub : forall l k c, In c (choose k l) -> forall y, In y c -> In y l).
      { clear. induction l as [|x l IH]; intros [|k] c I y J; cbn [choose] in I; try (destruct I as [<-|[]]; destruct J; fail); try (destruct I; fail).
        apply in_app_or in I. destruct I as [I|I]; [apply in_map_iff in I; destruct I as (d & <- & I); destruct J as [->|J]; [now left|right; now apply (IH k d)]|right; now apply (IH (S k) c)]. }
      assert (App : forall (a b : list (list nat)), NoDup a -> NoDup b -> (forall c, In c a -> ~ In c b) -> NoDup (a ++ b)).
      { clear. induction a as [|x a IH]; intros b Na Nb H; [exact Nb|]. inversion Na; subst. cbn. constructor; [intros I; apply in_app_or in I; destruct I as [I|I]; [contradiction|apply (H x); [now left|exact I]]|]. apply IH; auto. intros c I. apply H. now right. }
      apply App; [apply FinFun.Injective_map_NoDup; [intros a b E; now injection E|now apply IH]|now apply IH|]. intros c I J. apply in_map_iff in I. destruct I as (d & <- & I). apply Q1. apply (Sub _ _ _ J). now left. }
    apply NoDup_incl_length; [apply Nd, seq_NoDup|]. intros c I.
    assert (Cc : forall l k c, In c (choose k l) -> length c = k /\ (NoDup l -> NoDup c) /\ (StronglySorted lt l -> StronglySorted lt c) /\ forall y, In y c -> In y l).
    { clear. induction l as [|x l IH]; intros [|k] c I; cbn [choose] in I; try solve [destruct I as [<-|[]]; split; [reflexivity|split; [intros _; constructor|split; [intros _; constructor|intros y []]]]]; try solve [destruct I].
      apply in_app_or in I. destruct I as [I|I].
      - apply in_map_iff in I. destruct I as (d & <- & I). destruct (IH k d I) as (B1 & B2 & B3 & B4). split; [cbn; lia|]. split; [|split].
        + intros Q. inversion Q; subst. constructor; [intros J; apply B4 in J; contradiction|auto].
        + intros Q. inversion Q as [|? ? Q1 Q2]; subst. constructor; [auto|]. rewrite Forall_forall in *. intros y J. apply Q2, B4, J.
        + intros y [->|J]; [now left|right; auto].
      - destruct (IH (S k) c I) as (B1 & B2 & B3 & B4). split; [exact B1|]. split; [intros Q; inversion Q; auto|]. split; [intros Q; inversion Q; auto|]. intros y J. right. auto. }
    destruct (Cc _ _ _ I) as (C1 & C2 & C3 & C4). assert (So : sample_ok size n c) by (split; [exact C1|split; [apply C2, seq_NoDup|rewrite Forall_forall; intros y J; apply C4, in_seq in J; lia]]).
    destruct (C c So) as (sh & S1 & S2). destruct (B3 sh S1) as (t & T1 & T2). apply in_map_iff. exists t. split; [|exact T1].
    rewrite Forall_forall in A1. destruct (A1 t T1) as (_ & _ & Ft). apply sorted_ext; [apply sorted_filter, seq_sorted|apply C3, seq_sorted|]. intros i. rewrite canon_In by assumption. rewrite <- T2. symmetry. apply S2. }
  lia.
Qed.
Print Assumptions ransac_samples_distinct.

(** Finding: with n = 0 there is one (empty) sample; the samples never end when two or more iterations are requested. *)
Theorem ransac_samples_refuted : forall size iterations order shuffles, 1 <= size -> (2 <= iterations)%Z -> (forall l, Permutation (order l) l) ->
  exists samples, ransac_samples 0 size iterations order shuffles = Ok (samples, false).
Proof.
  intros size it order shuffles H1 H2 O. unfold ransac_samples. rewrite (proj2 (Nat.leb_gt size 0)) by lia.
  assert (El : limit size 0 it = it). { unfold limit. rewrite log_binom by lia. rewrite binom_0. cbn [INR]. rewrite ln_1. unfold Reqb. destruct (Req_EM_T 0 0); [reflexivity|contradiction]. }
  rewrite El. assert (On : order [] = []) by (apply Permutation_nil, Permutation_sym, O).
  assert (G : forall shs samples, samples = [] \/ samples = [[]] -> exists r, generate it 0 order samples shs = (r, false)).
  { induction shs as [|sh shs IH]; intros samples Hs; cbn [generate]; (rewrite (proj2 (Z.leb_gt _ _)) by (destruct Hs as [-> | ->]; cbn; lia)); [eexists; reflexivity|].
    cbn [firstn]. rewrite On. cbv zeta. destruct Hs as [-> | ->]; cbn [existsb same_set forallb andb orb app]; apply IH; auto. }
  destruct (G shuffles [] (or_introl eq_refl)) as [r E]. exists r. now rewrite E.
Qed.
Print Assumptions ransac_samples_refuted.
(** n = 0, exactly: no sample for no iterations, and otherwise one empty sample, after which it ends iff one iteration was asked for. *)
Theorem ransac_samples_zero : forall size iterations order sh shuffles, 1 <= size -> (forall l, Permutation (order l) l) ->
  ransac_samples 0 size iterations order (sh :: shuffles) = Ok (if (iterations <=? 0)%Z then ([], true) else ([[]], (iterations =? 1)%Z)).
Proof.
  intros size it order sh shuffles H1 O. unfold ransac_samples. rewrite (proj2 (Nat.leb_gt size 0)) by lia.
  assert (El : limit size 0 it = it). { unfold limit. rewrite log_binom by lia. rewrite binom_0. cbn [INR]. rewrite ln_1. unfold Reqb. destruct (Req_EM_T 0 0); [reflexivity|contradiction]. }
  rewrite El. assert (On : order [] = []) by (apply Permutation_nil, Permutation_sym, O). f_equal.
  cbn [generate length]. change (Z.of_nat 0) with 0%Z. destruct (it <=? 0)%Z eqn:I0; [reflexivity|]. apply Z.leb_gt in I0. cbn [firstn]. rewrite On. cbn [existsb app].
  destruct (it =? 1)%Z eqn:I1.
  - apply Z.eqb_eq in I1. subst it. destruct shuffles; reflexivity.
  - apply Z.eqb_neq in I1. induction shuffles as [|s shs IH]; cbn [generate]; (rewrite (proj2 (Z.leb_gt _ _)) by (cbn; lia)); [reflexivity|].
    cbn [firstn]. rewrite On. exact IH.
Qed.
Print Assumptions ransac_samples_zero.
Example ransac_samples_ex : fst (generate 3 2 (fun l => l) [] [[0; 1; 2]; [1; 0; 2]; [2; 1; 0]; [1; 2; 0]; [0; 2; 1]; [2; 0; 1]]) = [[0; 1]; [2; 1]; [0; 2]]. Proof. reflexivity. Qed.
