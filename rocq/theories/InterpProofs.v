From Verif Require Import Base BaseLemmas HelpersModel InterpModel InterpSpec.
From Coq Require Import Sorting.Permutation Sorting.Sorted.
Open Scope R_scope.

Lemma argmin_from_spec l best ibest i : 
  let k := argmin_from Rltb best ibest i l in
  (k = ibest /\ (forall j, (j < length l)%nat -> best <= nth j l 0)) \/
  (exists m, (m < length l)%nat /\ k = (i + m)%nat /\ nth m l 0 < best /\ (forall j, (j < length l)%nat -> nth m l 0 <= nth j l 0)
     /\ forall j, (j < m)%nat -> nth m l 0 < nth j l 0).
Proof.
  revert best ibest i. induction l as [|x l IH]; intros best ibest i; cbn [argmin_from]; [left; split; [reflexivity|intros j H; cbn in H; lia]|].
  destruct (Rltb_spec x best) as [H|H].
  - right. destruct (IH x i (S i)) as [[E L]|(m & Lm & E & H1 & H2 & H3)].
    + exists 0%nat. split; [cbn; lia|]. split; [rewrite E; lia|]. split; [exact H|]. split.
      * intros [|j] Hj; cbn in *; [lra|apply L; lia].
      * intros j Hj. lia.
    + exists (S m). split; [cbn; lia|]. split; [rewrite E; lia|]. cbn [nth]. split; [lra|]. split.
      * intros [|j] Hj; cbn in *; [lra|apply H2; lia].
      * intros [|j] Hj; cbn; [lra|apply H3; lia].
  - destruct (IH best ibest (S i)) as [[E L]|(m & Lm & E & H1 & H2 & H3)].
    + left. split; [exact E|]. intros [|j] Hj; cbn in *; [lra|apply L; lia].
    + right. exists (S m). split; [cbn; lia|]. split; [rewrite E; lia|]. cbn [nth]. split; [lra|]. split.
      * intros [|j] Hj; cbn in *; [lra|apply H2; lia].
      * intros [|j] Hj; cbn; [lra|apply H3; lia].
Qed.
Lemma argmin_spec l : l <> [] -> exists k, argmin Rltb l = Ok k /\ (k < length l)%nat
  /\ (forall j, (j < length l)%nat -> nth k l 0 <= nth j l 0) /\ (forall j, (j < k)%nat -> nth k l 0 < nth j l 0).
Proof.
  destruct l as [|x l]; [congruence|]. intros _. cbn [argmin]. eexists. split; [reflexivity|].
  destruct (argmin_from_spec l x 0 1) as [[E L]|(m & Lm & E & H1 & H2 & H3)]; rewrite E.
  - split; [cbn; lia|]. split; [intros [|j] Hj; cbn in *; [lra|apply L; lia]|intros j Hj; lia].
  - cbn [Nat.add nth length]. split; [lia|]. split; [intros [|j] Hj; cbn in *; [lra|apply H2; lia]|].
    intros [|j] Hj; cbn; [lra|apply H3; lia].
Qed.

(** where_ *)
Lemma where_gen m s : forall k, In k (map fst (filter snd (combine (seq s (length m)) m))) <-> (s <= k)%nat /\ nth (k - s) m false = true.
Proof.
  revert s. induction m as [|b m IH]; intros s k; cbn [length seq combine filter map].
  - cbn. destruct (k - s)%nat; split; intros H; try destruct H as []; try discriminate; contradiction.
  - assert (D : forall k, (s <= k)%nat -> k <> s -> (k - s = S (k - S s))%nat) by lia.
    cbn [snd]. destruct b; cbn [map fst In]; rewrite IH.
    + split.
      * intros [<-|[H1 H2]]; [split; [lia|]; rewrite Nat.sub_diag; reflexivity|]. split; [lia|]. rewrite D by lia. exact H2.
      * intros [H1 H2]. destruct (Nat.eq_dec s k) as [E|E]; [left; exact E|right]. rewrite D in H2 by lia. split; [lia|exact H2].
    + split; intros [H1 H2].
      * split; [lia|]. rewrite D by lia. exact H2.
      * destruct (Nat.eq_dec k s) as [E|E]; [subst; rewrite Nat.sub_diag in H2; discriminate|]. rewrite D in H2 by lia. split; [lia|exact H2].
Qed.
Lemma in_where m k : In k (where_ m) <-> nth k m false = true.
Proof. unfold where_. rewrite where_gen, Nat.sub_0_r. split; [tauto|]. intros H. split; [lia|exact H]. Qed.
Lemma where_sorted_gen m s : StronglySorted lt (map fst (filter snd (combine (seq s (length m)) m))).
Proof.
  revert s. induction m as [|b m IH]; intros s; cbn [length seq combine filter map snd]; [constructor|].
  destruct b; cbn [map fst]; [|apply IH]. constructor; [apply IH|]. apply Forall_forall. intros k H. apply where_gen in H. lia.
Qed.

(** first minimum over the selected indices *)
Lemma where_argmin m (f : nat -> R) : where_ m <> [] -> exists a, argmin Rltb (map f (where_ m)) = Ok a /\
  let i := nth a (where_ m) 0%nat in nth i m false = true
  /\ (forall k, nth k m false = true -> f i <= f k) /\ (forall k, nth k m false = true -> (k < i)%nat -> f i < f k).
Proof.
  intros N. destruct (argmin_spec (map f (where_ m))) as (a & E & L & H1 & H2). { destruct (where_ m); [congruence|discriminate]. }
  exists a. split; [exact E|]. rewrite map_length in L, H1. set (w := where_ m) in *. cbv zeta.
  assert (Nf : forall j, (j < length w)%nat -> nth j (map f w) 0 = f (nth j w 0%nat)).
  { intros j Hj. rewrite (nth_indep _ 0 (f 0%nat)) by (rewrite map_length; lia). apply map_nth. }
  split; [apply in_where; apply nth_In; exact L|]. split.
  - intros k Hk. apply in_where in Hk. destruct (In_nth _ _ 0%nat Hk) as (j & Lj & <-). rewrite <- !Nf by auto. apply H1. exact Lj.
  - intros k Hk Hlt. apply in_where in Hk. destruct (In_nth _ _ 0%nat Hk) as (j & Lj & <-). rewrite <- !Nf by auto. apply H2.
    destruct (Nat.lt_trichotomy j a) as [H|[H|H]]; [exact H|subst; fold w in Hlt; lia|].
    exfalso. pose proof (where_sorted_gen m 0) as S. fold (where_ m) in S. fold w in S.
    assert (T : forall (l : list nat) p q, StronglySorted lt l -> (p < q < length l)%nat -> (nth p l 0 < nth q l 0)%nat).
    { intros l p q SS. revert p q. induction SS as [|u l SS IH F]; intros p q Hpq; [cbn in Hpq; lia|].
      destruct q as [|q]; [lia|]. destruct p as [|p]; cbn [nth].
      - rewrite Forall_forall in F. apply F. apply nth_In. cbn in Hpq. lia.
      - apply IH. cbn in Hpq. lia. }
    fold w in Hlt, Lj. specialize (T w a j S ltac:(lia)). lia.
Qed.

Lemma nth_dx x xi k : (k < length x)%nat -> nth k (map (fun v => v - xi) x) 0 = nth k x 0 - xi.
Proof. intros H. rewrite (nth_indep _ 0 (0 - xi)) by (rewrite map_length; lia). apply (map_nth (fun v => v - xi)). Qed.
Lemma nth_mask (f : R -> bool) x xi k : nth k (map f (map (fun v => v - xi) x)) false = true <-> (k < length x)%nat /\ f (nth k x 0 - xi) = true.
Proof.
  destruct (Nat.lt_ge_cases k (length x)) as [H|H].
  - rewrite (nth_indep _ false (f 0)) by (rewrite !map_length; lia). rewrite map_nth, nth_dx by exact H. tauto.
  - rewrite nth_overflow by (rewrite !map_length; lia). split; [discriminate|lia].
Qed.

Theorem nearest_spec x xi : x <> [] ->
  (~ bounded x xi -> nearest false x xi = Err ValueError) /\
  (bounded x xi -> exists i j, nearest false x xi = Ok (i, j) /\ last_before x xi i /\ first_after x xi j
     /\ (In xi x -> i = j)).
Proof.
  intros N. unfold nearest. remember (map (fun v => v - xi) x) as dx eqn:Edx.
  assert (Nd : exists d r, dx = d :: r) by (destruct x; [congruence|subst dx; cbn; eauto]). destruct Nd as (d & r & Nd). rewrite Nd. rewrite <- Nd. clear d r Nd.
  set (mb := map (fun v => Rleb v 0) dx). set (ma := map (fun v => Rleb 0 v) dx).
  assert (Mb : forall k, nth k mb false = true <-> (k < length x)%nat /\ nth k x 0 <= xi).
  { intros k. unfold mb. rewrite Edx, nth_mask, Rleb_true. split; intros [H1 H2]; split; auto; lra. }
  assert (Ma : forall k, nth k ma false = true <-> (k < length x)%nat /\ xi <= nth k x 0).
  { intros k. unfold ma. rewrite Edx, nth_mask, Rleb_true. split; intros [H1 H2]; split; auto; lra. }
  assert (Bb : where_ mb <> [] <-> exists a, In a x /\ a <= xi).
  { split.
    - intros H. destruct (where_ mb) as [|k w] eqn:E; [congruence|]. assert (Hk : In k (where_ mb)) by (rewrite E; left; reflexivity).
      apply in_where, Mb in Hk. destruct Hk as [Hk1 Hk2]. exists (nth k x 0). split; [apply nth_In; exact Hk1|exact Hk2].
    - intros (a & Ha & La) E. destruct (In_nth _ _ 0 Ha) as (k & Hk & Ek). assert (H : In k (where_ mb)) by (apply in_where, Mb; split; [exact Hk|rewrite Ek; exact La]).
      rewrite E in H. exact H. }
  assert (Ba : where_ ma <> [] <-> exists a, In a x /\ xi <= a).
  { split.
    - intros H. destruct (where_ ma) as [|k w] eqn:E; [congruence|]. assert (Hk : In k (where_ ma)) by (rewrite E; left; reflexivity).
      apply in_where, Ma in Hk. destruct Hk as [Hk1 Hk2]. exists (nth k x 0). split; [apply nth_In; exact Hk1|exact Hk2].
    - intros (a & Ha & La) E. destruct (In_nth _ _ 0 Ha) as (k & Hk & Ek). assert (H : In k (where_ ma)) by (apply in_where, Ma; split; [exact Hk|rewrite Ek; exact La]).
      rewrite E in H. exact H. }
  split.
  - intros NB. destruct (where_ mb) as [|b0 bs] eqn:Eb; [reflexivity|]. destruct (where_ ma) as [|a0 as_] eqn:Ea; [reflexivity|].
    exfalso. apply NB. split; [apply Bb; discriminate|apply Ba; discriminate].
  - intros [B1 B2]. apply Bb in B1. apply Ba in B2.
    destruct (where_argmin mb (fun k => Rabs (nth k dx 0)) B1) as (a & Ea & Wa & Wa2 & Wa3).
    destruct (where_argmin ma (fun k => nth k dx 0) B2) as (b & Eb & Wb & Wb2 & Wb3).
    set (i := nth a (where_ mb) 0%nat) in *. set (j := nth b (where_ ma) 0%nat) in *.
    assert (E : (match where_ mb, where_ ma with | [], _ | _, [] => Err ValueError
      | _, _ => let* a := argmin Rltb (map (fun k => Rabs (nth k dx 0)) (where_ mb)) in
                let* b := argmin Rltb (map (fun k => nth k dx 0) (where_ ma)) in
                Ok (nth a (where_ mb) 0%nat, nth b (where_ ma) 0%nat) end) = Ok (i, j)).
    { unfold i, j. rewrite Ea, Eb. destruct (where_ mb); [congruence|]. destruct (where_ ma); [congruence|]. reflexivity. }
    rewrite E. cbn [bind]. apply Mb in Wa. apply Ma in Wb. destruct Wa as [Li Hi], Wb as [Lj Hj].
    assert (O : Rltb (nth j x 0) (nth i x 0) = false) by (apply Rltb_false; lra). rewrite O. exists i, j. split; [reflexivity|].
    assert (Db : forall k, (k < length x)%nat -> nth k x 0 <= xi -> Rabs (nth k dx 0) = xi - nth k x 0).
    { intros k Hk H. rewrite Edx, nth_dx by exact Hk. rewrite Rabs_left1 by lra. lra. }
    assert (Da : forall k, (k < length x)%nat -> nth k dx 0 = nth k x 0 - xi) by (intros; rewrite Edx; apply nth_dx; auto).
    assert (HB : last_before x xi i). { split; [exact Li|]. split; [exact Hi|]. intros k Hk H. specialize (Wa2 k (proj2 (Mb k) (conj Hk H))). rewrite !Db in Wa2 by auto. lra. }
    assert (HA : first_after x xi j). { split; [exact Lj|]. split; [exact Hj|]. intros k Hk H. specialize (Wb2 k (proj2 (Ma k) (conj Hk H))). rewrite !Da in Wb2 by auto. lra. }
    split; [exact HB|]. split; [exact HA|]. intros Hin. destruct (In_nth _ _ 0 Hin) as (k & Hk & Ek).
    destruct HB as (_ & _ & HB). destruct HA as (_ & _ & HA). specialize (HB k Hk ltac:(lra)). specialize (HA k Hk ltac:(lra)).
    assert (Ei : nth i x 0 = xi) by lra. assert (Ej : nth j x 0 = xi) by lra.
    destruct (Nat.lt_trichotomy i j) as [H|[H|H]]; [|exact H|]; exfalso.
    + assert (Q : nth i ma false = true) by (apply Ma; split; [exact Li|lra]). specialize (Wb3 i Q H). rewrite !Da in Wb3 by auto. lra.
    + assert (Q : nth j mb false = true) by (apply Mb; split; [exact Lj|lra]). specialize (Wa3 j Q H). cbn beta in Wa3. rewrite (Db i Li Hi), (Db j Lj ltac:(lra)) in Wa3. lra.
Qed.

(** argsort *)
Lemma insert_by_perm key i l : Permutation (insert_by key i l) (i :: l).
Proof.
  induction l as [|j l IH]; cbn; [reflexivity|]. destruct (_ || _); [|reflexivity].
  etransitivity; [apply perm_skip, IH|apply perm_swap].
Qed.
Definition key_le (key : nat -> R) (a b : nat) : Prop := key a <= key b.
Lemma insert_by_sorted key i l : StronglySorted (key_le key) l -> StronglySorted (key_le key) (insert_by key i l).
Proof.
  induction 1 as [|j l S IH F]; cbn; [repeat constructor|].
  destruct (Rltb_spec (key j) (key i)) as [H|H]; cbn [orb].
  - constructor; [exact IH|]. apply Forall_forall. intros k Hk. rewrite insert_by_perm in Hk. destruct Hk as [<-|Hk]; [unfold key_le; lra|].
    rewrite Forall_forall in F. auto.
  - destruct (Reqb_spec (key j) (key i)) as [E|E]; cbn.
    + constructor; [exact IH|]. apply Forall_forall. intros k Hk. rewrite insert_by_perm in Hk. destruct Hk as [<-|Hk]; [unfold key_le; lra|].
      rewrite Forall_forall in F. auto.
    + constructor; [constructor; auto|]. constructor; [unfold key_le; lra|]. eapply Forall_impl; [|exact F]. unfold key_le. intros k Hk. cbn beta in *. lra.
Qed.
Lemma argsort_gen v ks acc : StronglySorted (key_le (fun k => nth k v 0)) acc ->
  let r := fold_left (fun acc i => insert_by (fun k => nth k v 0) i acc) ks acc in
  StronglySorted (key_le (fun k => nth k v 0)) r /\ Permutation r (ks ++ acc).
Proof.
  revert acc. induction ks as [|k ks IH]; intros acc S; cbn [fold_left app]; [split; auto|].
  destruct (IH (insert_by (fun k => nth k v 0) k acc) (insert_by_sorted _ _ _ S)) as [H1 H2]. split; [exact H1|].
  etransitivity; [exact H2|]. etransitivity; [apply Permutation_app_head, insert_by_perm|]. symmetry. apply Permutation_middle.
Qed.
Lemma argsort_spec v : StronglySorted (key_le (fun k => nth k v 0)) (argsort v) /\ Permutation (argsort v) (seq 0 (length v)).
Proof.
  destruct (argsort_gen v (seq 0 (length v)) []) as [H1 H2]; [constructor|]. split; [exact H1|]. rewrite app_nil_r in H2. exact H2.
Qed.

Theorem nearest_extrapolate_spec x xi :
  ((length x < 2)%nat -> exists e, nearest true x xi = Err e) /\
  ((2 <= length x)%nat -> exists i j, nearest true x xi = Ok (i, j) /\ two_nearest x xi i j /\ nth i x 0 <= nth j x 0).
Proof.
  unfold nearest. set (dx := map (fun v => v - xi) x). assert (Ld : length dx = length x) by apply map_length.
  destruct (argsort_spec (map Rabs dx)) as [S P]. rewrite map_length, Ld in P. pose proof (Permutation_length P) as L. rewrite seq_length in L.
  assert (Key : forall k, (k < length x)%nat -> nth k (map Rabs dx) 0 = Rabs (nth k x 0 - xi)).
  { intros k Hk. rewrite (nth_indep _ 0 (Rabs 0)) by (rewrite map_length; lia). rewrite map_nth. unfold dx. rewrite nth_dx by exact Hk. reflexivity. }
  split; intros H.
  - destruct dx as [|d dx'] eqn:Edx; [eexists; reflexivity|]. rewrite <- Edx in *. destruct (argsort (map Rabs dx)) as [|i [|j r]]; [eexists; reflexivity|eexists; reflexivity|cbn in L; lia].
  - destruct dx as [|d dx'] eqn:Edx; [cbn in Ld; lia|]. rewrite <- Edx in *.
    destruct (argsort (map Rabs dx)) as [|i [|j r]] eqn:Ea; [cbn in L; lia|cbn in L; lia|]. cbn [bind].
    assert (In_ : forall k, In k (i :: j :: r) <-> (k < length x)%nat) by (intros k; rewrite P, in_seq; lia).
    assert (Hi : (i < length x)%nat) by (apply In_; left; reflexivity).
    assert (Hj : (j < length x)%nat) by (apply In_; right; left; reflexivity).
    assert (ND : NoDup (i :: j :: r)) by (eapply Permutation_NoDup; [symmetry; exact P|apply seq_NoDup]).
    assert (Ne : i <> j) by (inversion ND as [|? ? Q]; subst; intros ->; apply Q; left; reflexivity).
    assert (TN : two_nearest x xi i j).
    { split; [exact Hi|]. split; [exact Hj|]. split; [exact Ne|]. intros k Hk K1 K2. apply In_ in Hk. destruct Hk as [->|[->|Hk]]; [congruence|congruence|].
      inversion S as [|? ? S1 F1]; subst. inversion S1 as [|? ? S2 F2]; subst. rewrite Forall_forall in F1, F2.
      specialize (F1 k (or_intror Hk)). specialize (F2 k Hk). unfold key_le in F1, F2.
      rewrite !Key in F1, F2 by (apply In_; right; right; exact Hk) || auto.
      assert (Lk : (k < length x)%nat) by (apply In_; right; right; exact Hk).
      rewrite ?Key in F1, F2 by exact Lk. auto. }
    destruct (Rltb_spec (nth j x 0) (nth i x 0)) as [O|O].
    + exists j, i. split; [reflexivity|]. split; [|lra]. destruct TN as (_ & _ & _ & T). repeat split; auto; intros; apply T; auto.
    + exists i, j. split; [reflexivity|]. split; [exact TN|lra].
Qed.

(** values *)
Lemma scale_ne dt x0 x1 xi : x0 <> x1 -> scale_of dt x0 x1 xi = Ok (Some ((xi - x0) / (x1 - x0))).
Proof. intros H. unfold scale_of. replace (Reqb (x1 - x0) 0) with false by (symmetry; apply Reqb_false; lra). reflexivity. Qed.
Lemma last_first_ne x xi i j : last_before x xi i -> first_after x xi j -> ~ In xi x -> nth i x 0 < xi < nth j x 0.
Proof.
  intros (Li & Hi & _) (Lj & Hj & _) N. split.
  - destruct (Req_dec (nth i x 0) xi) as [E|E]; [|lra]. exfalso. apply N. rewrite <- E. apply nth_In; auto.
  - destruct (Req_dec (nth j x 0) xi) as [E|E]; [|lra]. exfalso. apply N. rewrite <- E. apply nth_In; auto.
Qed.
Lemma line_between x0 z0 x1 z1 xi : x0 < xi < x1 -> Rmin z0 z1 <= line x0 z0 x1 z1 xi <= Rmax z0 z1.
Proof.
  intros H. unfold line. set (t := (xi - x0) / (x1 - x0)).
  assert (T : 0 <= t <= 1).
  { unfold t. split; [apply Rmult_le_reg_r with (x1 - x0); [lra|]; unfold Rdiv; rewrite Rmult_assoc, Rinv_l by lra; lra|].
    apply Rmult_le_reg_r with (x1 - x0); [lra|]. unfold Rdiv; rewrite Rmult_assoc, Rinv_l by lra. lra. }
  clearbody t. unfold Rmin, Rmax. destruct (Rle_dec z0 z1); nra.
Qed.
Lemma nth_map2 {A B C} (f : A -> B -> C) l m k a b c : (k < length l)%nat -> (k < length m)%nat -> nth k (map2 f l m) c = f (nth k l a) (nth k m b).
Proof.
  revert m k. induction l as [|x l IH]; intros [|y m] k H1 H2; cbn in *; try lia. destruct k; [reflexivity|]. apply IH; lia.
Qed.

Theorem call_between dt x means xi n : x <> [] -> length means = length x -> Forall (fun m => length m = n) means ->
  bounded x xi -> ~ In xi x ->
  exists i j zs, last_before x xi i /\ first_after x xi j /\ nth i x 0 < xi < nth j x 0 /\ call dt false x means xi = Ok zs /\ length zs = n /\
    forall k, (k < n)%nat -> nth k zs None =
      match nth k (nth i means []) None, nth k (nth j means []) None with
      | Some z0, Some z1 => Some (line (nth i x 0) z0 (nth j x 0) z1 xi)
      | _, _ => None
      end.
Proof.
  intros N L F B NI. destruct (nearest_spec x xi N) as [_ H]. destruct (H B) as (i & j & E & Hb & Ha & _).
  pose proof (last_first_ne x xi i j Hb Ha NI) as O. unfold call. rewrite E. cbn [bind]. rewrite scale_ne by lra. cbn [bind].
  assert (Li : length (nth i means []) = n) by (rewrite Forall_forall in F; apply F, nth_In; destruct Hb; lia).
  assert (Lj : length (nth j means []) = n) by (rewrite Forall_forall in F; apply F, nth_In; destruct Ha; lia).
  exists i, j. eexists. split; [exact Hb|]. split; [exact Ha|]. split; [exact O|]. split; [reflexivity|]. split; [rewrite map2_length, Li, Lj; lia|].
  intros k Hk. rewrite (nth_map2 _ _ _ _ None None) by lia. unfold mean_cell.
  destruct (nth k (nth i means []) None), (nth k (nth j means []) None); reflexivity.
Qed.
Theorem call_at_node dt x means xi n : length means = length x -> Forall (fun m => length m = n) means -> In xi x ->
  call dt false x means xi = if dt then Err ZeroDivisionError else Ok (repeat None n).
Proof.
  intros L F HI. assert (N : x <> []) by (intros ->; contradiction).
  destruct (nearest_spec x xi N) as [_ H]. destruct H as (i & j & E & Hb & Ha & Eq). { split; exists xi; split; auto; lra. }
  specialize (Eq HI). subst j. unfold call. rewrite E. cbn [bind]. unfold scale_of.
  assert (Xi : nth i x 0 = xi). { destruct Hb as (Li & Hb & _), Ha as (_ & Ha & _). lra. }
  replace (Reqb (nth i x 0 - nth i x 0) 0) with true by (symmetry; apply Reqb_true; lra).
  destruct dt; [reflexivity|]. rewrite Xi. replace (Reqb (xi - xi) 0) with true by (symmetry; apply Reqb_true; lra). cbn [bind]. f_equal.
  assert (Li : length (nth i means []) = n) by (rewrite Forall_forall in F; apply F, nth_In; destruct Hb; lia).
  revert Li. generalize (nth i means []). clear. intros l <-. induction l as [|a l IH]; cbn; [reflexivity|]. rewrite IH. f_equal. destruct a; reflexivity.
Qed.
Theorem call_unbounded dt x means xi : x <> [] -> ~ bounded x xi -> call dt false x means xi = Err ValueError.
Proof. intros N H. unfold call. destruct (nearest_spec x xi N) as [H1 _]. rewrite (H1 H). reflexivity. Qed.

Theorem call_extrapolate dt x means xi n : length means = length x -> Forall (fun m => length m = n) means ->
  NoDup x -> (2 <= length x)%nat ->
  exists i j zs, two_nearest x xi i j /\ call dt true x means xi = Ok zs /\ length zs = n /\
    forall k, (k < n)%nat -> nth k zs None =
      match nth k (nth i means []) None, nth k (nth j means []) None with
      | Some z0, Some z1 => Some (line (nth i x 0) z0 (nth j x 0) z1 xi)
      | _, _ => None
      end.
Proof.
  intros L F ND L2. destruct (nearest_extrapolate_spec x xi) as [_ H]. destruct (H L2) as (i & j & E & T & O).
  pose proof T as (Hi & Hj & Ne & _).
  assert (Ex : nth i x 0 <> nth j x 0) by (intros Q; apply Ne; apply (proj1 (NoDup_nth x 0) ND i j Hi Hj Q)).
  unfold call. rewrite E. cbn [bind]. rewrite scale_ne by auto. cbn [bind].
  assert (Li : length (nth i means []) = n) by (rewrite Forall_forall in F; apply F, nth_In; lia).
  assert (Lj : length (nth j means []) = n) by (rewrite Forall_forall in F; apply F, nth_In; lia).
  exists i, j. eexists. split; [exact T|]. split; [reflexivity|]. split; [rewrite map2_length, Li, Lj; lia|].
  intros k Hk. rewrite (nth_map2 _ _ _ _ None None) by lia. unfold mean_cell.
  destruct (nth k (nth i means []) None), (nth k (nth j means []) None); reflexivity.
Qed.

(** sigma *)
Theorem call_sigma_between dt x means sigmas xi n : x <> [] -> length means = length x -> Forall (fun m => length m = n) means ->
  length sigmas = length x -> Forall (fun m => length m = n) sigmas -> bounded x xi -> ~ In xi x ->
  exists i j ss, last_before x xi i /\ first_after x xi j /\ nth i x 0 < xi < nth j x 0 /\ call_sigma dt false x means (Some sigmas) xi = Ok ss /\ length ss = n /\
    let t := (xi - nth i x 0) / (nth j x 0 - nth i x 0) in 0 < t < 1 /\
    forall k z0 z1 s0 s1, (k < n)%nat -> nth k (nth i means []) None = Some z0 -> nth k (nth j means []) None = Some z1 ->
      nth k (nth i sigmas []) None = Some s0 -> nth k (nth j sigmas []) None = Some s1 ->
      exists s, nth k ss None = Some s /\ 0 <= s /\
        s ^ 2 = s0 ^ 2 + t ^ 2 * (s0 ^ 2 + s1 ^ 2) + ((z1 - z0) * Rmin t (1 - t) / 3) ^ 2.
Proof.
  intros N L F Ls Fs B NI. destruct (nearest_spec x xi N) as [_ H]. destruct (H B) as (i & j & E & Hb & Ha & _).
  pose proof (last_first_ne x xi i j Hb Ha NI) as O. unfold call_sigma. rewrite E. cbn [bind]. rewrite scale_ne by lra. cbn [bind].
  assert (Li : length (nth i means []) = n) by (rewrite Forall_forall in F; apply F, nth_In; destruct Hb; lia).
  assert (Lj : length (nth j means []) = n) by (rewrite Forall_forall in F; apply F, nth_In; destruct Ha; lia).
  assert (Lsi : length (nth i sigmas []) = n) by (rewrite Forall_forall in Fs; apply Fs, nth_In; destruct Hb; lia).
  assert (Lsj : length (nth j sigmas []) = n) by (rewrite Forall_forall in Fs; apply Fs, nth_In; destruct Ha; lia).
  exists i, j. eexists. split; [exact Hb|]. split; [exact Ha|]. split; [exact O|]. split; [reflexivity|].
  split; [rewrite map2_length, !combine_length, Li, Lj, Lsi, Lsj; lia|].
  set (x0 := nth i x 0) in *. set (x1 := nth j x 0) in *. set (t := (xi - x0) / (x1 - x0)) in *.
  assert (T : 0 < t < 1).
  { unfold t. split; [apply Rdiv_lt_0_compat; lra|]. apply Rmult_lt_reg_r with (x1 - x0); [lra|]. unfold Rdiv; rewrite Rmult_assoc, Rinv_l by lra. lra. }
  split; [exact T|]. intros k z0 z1 s0 s1 Hk Z0 Z1 S0 S1.
  rewrite (nth_map2 _ _ _ _ (None, None) (None, None)) by (rewrite combine_length; lia). rewrite !combine_nth by lia. cbn [fst snd].
  rewrite Z0, Z1, S0, S1. unfold sigma_cell. fold t. eexists. split; [reflexivity|]. split; [apply sqrt_pos|].
  replace (Rmin (Rabs (xi - x0)) (Rabs (xi - x1)) / (x1 - x0)) with (Rmin t (1 - t)).
  - rewrite pow2_sqrt; [|pose proof (pow2_ge_0 s0); pose proof (pow2_ge_0 s1); pose proof (pow2_ge_0 t); repeat apply Rplus_le_le_0_compat; try apply pow2_ge_0; apply Rmult_le_pos; lra]. f_equal. unfold Rdiv. ring.
  - rewrite (Rabs_pos_eq (xi - x0)) by lra. rewrite (Rabs_left1 (xi - x1)) by lra.
    assert (D : 1 - t = (x1 - xi) / (x1 - x0)) by (unfold t; field; lra). rewrite D. unfold t.
    unfold Rmin. destruct (Rle_dec ((xi - x0) / (x1 - x0)) ((x1 - xi) / (x1 - x0))) as [Q|Q]; destruct (Rle_dec (xi - x0) (- (xi - x1))) as [Q'|Q']; try reflexivity.
    + exfalso. apply Q'. apply Rmult_le_compat_r with (r := x1 - x0) in Q; [|lra]. unfold Rdiv in Q. rewrite !Rmult_assoc, Rinv_l, !Rmult_1_r in Q by lra. lra.
    + exfalso. apply Q. unfold Rdiv. apply Rmult_le_compat_r; [left; apply Rinv_0_lt_compat; lra|lra].
    + f_equal. lra.
Qed.
