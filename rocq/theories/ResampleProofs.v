(** Proofs about resampling. *)
From Verif Require Import Base BaseLemmas XReal ResampleModel ResampleSpec.
From Coq Require Import Sorting.Sorted.
Open Scope R_scope.

(** ** binary search *)
Section BS.
  Context {T : Type} (lt cmp : T -> T -> bool) (d : T).
  Definition first_not (arr : list T) (k : T) (i : nat) : Prop :=
    (i <= length arr)%nat /\ (forall j, (j < i)%nat -> cmp (nth j arr d) k = true) /\ ((i < length arr)%nat -> cmp (nth i arr d) k = false).
  Definition mono_for (arr : list T) (k : T) : Prop :=
    forall i j, (i <= j < length arr)%nat -> cmp (nth j arr d) k = true -> cmp (nth i arr d) k = true.
  Lemma bsearch_spec arr k : mono_for arr k -> forall fuel lo hi, (hi - lo < fuel)%nat -> (lo <= hi <= length arr)%nat ->
    (forall j, (j < lo)%nat -> cmp (nth j arr d) k = true) -> ((hi < length arr)%nat -> cmp (nth hi arr d) k = false) ->
    first_not arr k (bsearch cmp d arr k fuel lo hi).
  Proof.
    intros M. induction fuel as [|f IH]; intros lo hi F B L H; [lia|]. cbn [bsearch].
    destruct (Nat.ltb_spec lo hi) as [LT|GE].
    - set (mid := (lo + (hi - lo) / 2)%nat).
      assert (Hm : (lo <= mid < hi)%nat). { unfold mid. pose proof (Nat.div_lt (hi - lo) 2). destruct (Nat.eq_dec (hi - lo) 0); lia. }
      destruct (cmp (nth mid arr d) k) eqn:E.
      + apply IH; [lia|lia| |exact H]. intros j Hj. apply (M j mid); [lia|exact E].
      + apply IH; [lia|lia|exact L|]. intros _. exact E.
    - assert (lo = hi) by lia. subst hi. split; [lia|]. split; [exact L|exact H].
  Qed.
  Lemma bsearch_range arr k : (length arr > 0)%nat -> cmp (nth (length arr - 1) arr d) k = false -> forall fuel lo hi, (hi - lo < fuel)%nat -> (lo <= hi <= length arr)%nat ->
    (lo < length arr)%nat -> (bsearch cmp d arr k fuel lo hi < length arr)%nat.
  Proof.
    intros N C. induction fuel as [|f IH]; intros lo hi F B L; [lia|]. cbn [bsearch]. destruct (Nat.ltb_spec lo hi) as [LT|GE]; [|lia].
    set (mid := (lo + (hi - lo) / 2)%nat).
    assert (Hm : (lo <= mid < hi)%nat). { unfold mid. pose proof (Nat.div_lt (hi - lo) 2). destruct (Nat.eq_dec (hi - lo) 0); lia. }
    destruct (cmp (nth mid arr d) k) eqn:E.
    - apply IH; [lia|lia|]. destruct (Nat.eq_dec mid (length arr - 1)) as [Q|Q]; [congruence|lia].
    - apply IH; lia.
  Qed.
  Hypothesis H1 : forall a l k, lt l k = true -> cmp a l = true -> cmp a k = true.
  Hypothesis H2 : forall a l k, lt l k = false -> cmp a l = false -> cmp a k = false.
  Lemma searchsorted_from_spec arr keys : (forall k, In k keys -> mono_for arr k) -> forall lo hi l, (lo <= hi <= length arr)%nat ->
    (forall j, (j < lo)%nat -> cmp (nth j arr d) l = true) -> ((hi < length arr)%nat -> cmp (nth hi arr d) l = false) ->
    Forall2 (first_not arr) keys (searchsorted_from lt cmp d arr lo hi l keys).
  Proof.
    induction keys as [|k r IH]; intros M lo hi l B L H; cbn [searchsorted_from]; [constructor|].
    set (lo' := if lt l k then lo else 0%nat). set (hi' := if lt l k then _ else _).
    assert (S : first_not arr k (bsearch cmp d arr k (S (length arr)) lo' hi')).
    { apply bsearch_spec; [apply M; left; reflexivity| | | |]; subst lo' hi'; destruct (lt l k) eqn:E.
      - lia.
      - destruct (Nat.ltb_spec hi (length arr)); lia.
      - lia.
      - destruct (Nat.ltb_spec hi (length arr)); lia.
      - intros j Hj. eapply H1; [exact E|apply L; exact Hj].
      - intros j Hj. lia.
      - lia.
      - destruct (Nat.ltb_spec hi (length arr)) as [Q|Q]; [|lia]. intros Q'. specialize (M k (or_introl eq_refl)).
        destruct (cmp (nth (S hi) arr d) k) eqn:E2; [|reflexivity]. exfalso. assert (F : cmp (nth hi arr d) k = true) by (apply (M hi (S hi)); [lia|exact E2]).
        rewrite (H2 _ _ _ E (H Q)) in F. discriminate. }
    constructor; [exact S|]. destruct S as (S1 & S2 & S3). apply IH; [intros k' Hk; apply M; right; exact Hk|lia|exact S2|exact S3].
  Qed.
  Lemma searchsorted_all_spec arr keys : (forall k, In k keys -> mono_for arr k) -> Forall2 (first_not arr) keys (searchsorted_all lt cmp d arr keys).
  Proof.
    intros M. destruct keys as [|k r]; cbn [searchsorted_all]; [constructor|]. apply searchsorted_from_spec; [exact M|lia|intros; lia|intros; lia].
  Qed.
End BS.
Lemma searchsorted_from_length {T} (lt cmp : T -> T -> bool) d arr keys : forall lo hi l, length (searchsorted_from lt cmp d arr lo hi l keys) = length keys.
Proof. induction keys as [|k r IH]; intros; cbn; [reflexivity|]. rewrite IH. reflexivity. Qed.
Lemma searchsorted_all_length {T} (lt cmp : T -> T -> bool) d arr keys : length (searchsorted_all lt cmp d arr keys) = length keys.
Proof. destruct keys; cbn [searchsorted_all]; [reflexivity|apply searchsorted_from_length]. Qed.
Lemma searchsorted_from_range {T} (lt cmp : T -> T -> bool) d arr keys : (length arr > 0)%nat -> (forall k, In k keys -> cmp (nth (length arr - 1) arr d) k = false) ->
  forall lo hi l, (lo <= hi <= length arr)%nat -> (lo < length arr)%nat -> Forall (fun i => (i < length arr)%nat) (searchsorted_from lt cmp d arr lo hi l keys).
Proof.
  intros N. induction keys as [|k r IH]; intros C lo hi l B L; cbn [searchsorted_from]; [constructor|].
  set (lo' := if lt l k then lo else 0%nat). set (hi' := if lt l k then _ else _).
  assert (Q : (bsearch cmp d arr k (S (length arr)) lo' hi' < length arr)%nat).
  { apply bsearch_range; [exact N|apply C; left; reflexivity| | |]; subst lo' hi'; destruct (lt l k); destruct (Nat.ltb_spec hi (length arr)); lia. }
  constructor; [exact Q|]. apply IH; [intros k' Hk; apply C; right; exact Hk|lia|exact Q].
Qed.
Lemma searchsorted_all_range {T} (lt cmp : T -> T -> bool) d arr keys : (length arr > 0)%nat -> (forall k, In k keys -> cmp (nth (length arr - 1) arr d) k = false) ->
  Forall (fun i => (i < length arr)%nat) (searchsorted_all lt cmp d arr keys).
Proof. intros N C. destruct keys as [|k r]; [constructor|]. unfold searchsorted_all. apply searchsorted_from_range; [exact N|exact C|lia|lia]. Qed.

(** ** cumulative weights *)
Lemma cumsum_from_length l : forall s, length (cumsum_from s l) = length l.
Proof. induction l as [|x l IH]; intros s; cbn; [reflexivity|]. rewrite IH. reflexivity. Qed.
Lemma cumsum_from_nth l : forall s i, (i < length l)%nat -> nth i (cumsum_from s l) 0 = s + sumR (firstn (S i) l).
Proof.
  induction l as [|x l IH]; intros s i H; cbn in H; [lia|]. destruct i as [|i].
  - cbn. lra.
  - cbn [cumsum_from nth]. rewrite IH by lia. cbn [firstn sumR fold_right]. change (fold_right Rplus 0 (firstn (S i) l)) with (sumR (firstn (S i) l)). destruct l; [cbn in H; lia|]. cbn [firstn sumR fold_right]. lra.
Qed.
Lemma sumR_map_div l s : sumR (map (fun w => w / s) l) = sumR l / s.
Proof. induction l as [|x l IH]; cbn; [unfold Rdiv; ring|]. change (fold_right Rplus 0 (map (fun w => w / s) l)) with (sumR (map (fun w => w / s) l)). rewrite IH. unfold sumR, Rdiv. ring. Qed.
Lemma firstn_map' {A B} (f : A -> B) l n : firstn n (map f l) = map f (firstn n l).
Proof. revert n. induction l as [|x l IH]; intros [|n]; cbn; [reflexivity..|]. rewrite IH. reflexivity. Qed.
Lemma cum_norm_nth ws i : (i < length ws)%nat -> nth i (cumsum (normalize ws)) 0 = share_before ws (S i).
Proof.
  intros H. unfold cumsum, normalize. rewrite cumsum_from_nth by (rewrite map_length; exact H). rewrite firstn_map', sumR_map_div. unfold share_before. lra.
Qed.
Lemma cum_norm_length ws : length (cumsum (normalize ws)) = length ws.
Proof. unfold cumsum, normalize. rewrite cumsum_from_length. apply map_length. Qed.
Lemma sumR_nonneg l : Forall (fun w => 0 <= w) l -> 0 <= sumR l.
Proof. induction 1 as [|x l Hx H IH]; cbn; [lra|]. unfold sumR in IH. lra. Qed.
Lemma sumR_firstn_S l i : (i < length l)%nat -> sumR (firstn (S i) l) = sumR (firstn i l) + nth i l 0.
Proof.
  revert i. induction l as [|x l IH]; intros i H; cbn in H; [lia|]. destruct i as [|i]; [cbn; lra|].
  change (sumR (firstn (S (S i)) (x :: l))) with (x + sumR (firstn (S i) l)). change (sumR (firstn (S i) (x :: l))) with (x + sumR (firstn i l)).
  cbn [nth]. rewrite IH by lia. lra.
Qed.
Lemma share_before_S ws i : (i < length ws)%nat -> share_before ws (S i) = share_before ws i + share ws i.
Proof. intros H. unfold share_before, share. rewrite sumR_firstn_S by exact H. unfold Rdiv. ring. Qed.
Lemma share_before_0 ws : share_before ws 0 = 0.
Proof. unfold share_before. cbn. unfold Rdiv. ring. Qed.
Lemma share_before_all ws : 0 < sumR ws -> share_before ws (length ws) = 1.
Proof. intros H. unfold share_before. rewrite firstn_all. field. lra. Qed.
Lemma share_nonneg ws i : weights_ok ws -> 0 <= share ws i.
Proof.
  intros [F S]. unfold share. destruct (le_lt_dec (length ws) i) as [G|G]; [rewrite nth_overflow by exact G; unfold Rdiv; lra|].
  rewrite Forall_forall in F. apply Rdiv_nonneg; [apply F, nth_In; exact G|exact S].
Qed.
Lemma share_before_mono ws i j : weights_ok ws -> (i <= j <= length ws)%nat -> share_before ws i <= share_before ws j.
Proof.
  intros W [L1 L2]. induction j as [|j IH].
  - replace i with 0%nat by lia. lra.
  - destruct (Nat.eq_dec i (S j)) as [->|]; [lra|]. rewrite share_before_S by lia. pose proof (share_nonneg ws j W). assert (share_before ws i <= share_before ws j) by (apply IH; lia). lra.
Qed.
Lemma cum_mono ws : weights_ok ws -> forall k, mono_for Rltb 0 (cumsum (normalize ws)) k.
Proof.
  intros W k i j H E. rewrite cum_norm_length in H. rewrite cum_norm_nth in * by lia. apply Rltb_true in E. apply Rltb_true.
  pose proof (share_before_mono ws (S i) (S j) W ltac:(lia)). lra.
Qed.
(** the index found for a position p in (0, 1) *)
Definition in_stratum (ws : list R) (p : R) (i : nat) : Prop := (i < length ws)%nat /\ share_before ws i < p <= share_before ws (S i).
Lemma search_strata ws ps : weights_ok ws -> Forall (fun p => 0 < p < 1) ps ->
  Forall2 (in_stratum ws) ps (searchsorted_all Rltb Rltb 0 (cumsum (normalize ws)) ps).
Proof.
  intros W F. assert (Q := searchsorted_all_spec Rltb Rltb 0 ltac:(intros a l k E1 E2; apply Rltb_true in E1, E2; apply Rltb_true; lra)
    ltac:(intros a l k E1 E2; apply Rltb_false in E1, E2; apply Rltb_false; lra) (cumsum (normalize ws)) ps (fun k _ => cum_mono ws W k)).
  revert F Q. generalize (searchsorted_all Rltb Rltb 0 (cumsum (normalize ws)) ps). induction ps as [|p ps IH]; intros l F Q; inversion Q as [|? i ? l' Q1 Q2]; subst; [constructor|].
  inversion F as [|? ? Fp F']; subst. constructor; [|apply IH; auto].
  destruct Q1 as (L & B & A). rewrite cum_norm_length in L, A.
  assert (Hi : (i < length ws)%nat).
  { destruct (Nat.eq_dec i (length ws)) as [->|]; [|lia]. exfalso. destruct ws as [|w ws]; [destruct W as [_ W]; cbn in W; lra|].
    specialize (B (length ws) ltac:(cbn; lia)). rewrite cum_norm_nth in B by (cbn; lia). change (S (length ws)) with (length (w :: ws)) in B.
    rewrite share_before_all in B by apply W. apply Rltb_true in B. lra. }
  split; [exact Hi|]. specialize (A Hi). rewrite cum_norm_nth in A by exact Hi. apply Rltb_false in A. split; [|exact A].
  destruct i as [|i]; [rewrite share_before_0; lra|]. specialize (B i ltac:(lia)). rewrite cum_norm_nth in B by lia. apply Rltb_true in B. exact B.
Qed.
Lemma stratum_unique ws p i j : weights_ok ws -> in_stratum ws p i -> in_stratum ws p j -> i = j.
Proof.
  intros W [Li Hi] [Lj Hj]. destruct (Nat.lt_trichotomy i j) as [L|[E|L]]; [|exact E|]; exfalso.
  - pose proof (share_before_mono ws (S i) j W ltac:(lia)). lra.
  - pose proof (share_before_mono ws (S j) i W ltac:(lia)). lra.
Qed.

(** ** counting *)
Definition cnt (f : nat -> bool) (n : nat) : nat := length (filter f (seq 0 n)).
Lemma filter_length_le {A} (f g : A -> bool) l : (forall a, In a l -> f a = true -> g a = true) -> (length (filter f l) <= length (filter g l))%nat.
Proof.
  induction l as [|a l IH]; intros H; cbn; [lia|]. assert (IH' : (length (filter f l) <= length (filter g l))%nat) by (apply IH; intros; apply H; [right|]; auto).
  destruct (f a) eqn:E; [rewrite (H a (or_introl eq_refl) E); cbn; lia|]. destruct (g a); cbn; lia.
Qed.
Lemma cnt_S f n : cnt f (S n) = (cnt f n + if f n then 1 else 0)%nat.
Proof. unfold cnt. rewrite seq_S, filter_app, app_length. cbn. destruct (f n); reflexivity. Qed.
Lemma cnt_le_floor x n : Z.of_nat (cnt (fun k => Rleb (INR k) x) n) = Z.min (Z.of_nat n) (Z.max 0 (Rfloor x + 1)).
Proof.
  induction n as [|n IH]; [cbn; lia|]. rewrite cnt_S, Nat2Z.inj_add, IH.
  destruct (Rleb_spec (INR n) x) as [H|H].
  - rewrite INR_IZR_INZ in H. apply Rfloor_le in H. lia.
  - apply Rnot_le_lt in H. rewrite INR_IZR_INZ in H. apply Rfloor_lt in H. lia.
Qed.
Lemma count_occ_filter (l : list nat) i : count_occ Nat.eq_dec l i = length (filter (Nat.eqb i) l).
Proof.
  induction l as [|a l IH]; cbn; [reflexivity|]. rewrite IH. destruct (Nat.eq_dec a i) as [->|N].
  - rewrite Nat.eqb_refl. reflexivity.
  - destruct (Nat.eqb_spec i a); [congruence|reflexivity].
Qed.
(** copies of i = positions up to the end of stratum i minus those up to its start *)
Lemma copies_diff ws ps idx i : weights_ok ws -> Forall2 (in_stratum ws) ps idx -> (i < length ws)%nat ->
  copies idx i = (Z.of_nat (length (filter (fun x => Rleb x (share_before ws (S i))) ps)) - Z.of_nat (length (filter (fun x => Rleb x (share_before ws i)) ps)))%Z.
Proof.
  intros W H Hi. unfold copies. rewrite count_occ_filter. induction H as [|x j ps idx Hj H IH]; [reflexivity|]. cbn [filter].
  destruct Hj as [Lj Hj]. destruct (Nat.eqb_spec i j) as [<-|N].
  - replace (Rleb x (share_before ws (S i))) with true by (symmetry; apply Rleb_true; lra).
    replace (Rleb x (share_before ws i)) with false by (symmetry; apply Rleb_false; lra). cbn [length]. lia.
  - destruct (le_lt_dec i j) as [L|L].
    + pose proof (share_before_mono ws (S i) j W ltac:(lia)). pose proof (share_before_mono ws i (S i) W ltac:(lia)).
      replace (Rleb x (share_before ws (S i))) with false by (symmetry; apply Rleb_false; lra).
      replace (Rleb x (share_before ws i)) with false by (symmetry; apply Rleb_false; lra). exact IH.
    + pose proof (share_before_mono ws (S j) i W ltac:(lia)). pose proof (share_before_mono ws i (S i) W ltac:(lia)).
      replace (Rleb x (share_before ws (S i))) with true by (symmetry; apply Rleb_true; lra).
      replace (Rleb x (share_before ws i)) with true by (symmetry; apply Rleb_true; lra). cbn [length]. lia.
Qed.
Lemma filter_map_length {A B} (f : A -> B) (g : B -> bool) l : length (filter g (map f l)) = length (filter (fun a => g (f a)) l).
Proof. induction l as [|a l IH]; cbn; [reflexivity|]. destruct (g (f a)); cbn; rewrite IH; reflexivity. Qed.
Lemma Rfloor_diff a b : (Rfloor b <= Rfloor (a + b) - Rfloor a <= Rceil b)%Z.
Proof.
  pose proof (Rfloor_lb a). pose proof (Rfloor_ub a). pose proof (Rfloor_lb b). pose proof (Rfloor_ub b). pose proof (Rfloor_lb (a + b)). pose proof (Rfloor_ub (a + b)).
  pose proof (Rceil_ub b). pose proof (Rceil_lb b). split.
  - assert (IZR (Rfloor b) < IZR (Rfloor (a + b) - Rfloor a + 1)) by (rewrite plus_IZR, minus_IZR; lra). apply lt_IZR in H7. lia.
  - assert (IZR (Rfloor (a + b) - Rfloor a) < IZR (Rceil b + 1)) by (rewrite plus_IZR, minus_IZR; lra). apply lt_IZR in H7. lia.
Qed.
