(** Property C53: the pairs of images that are matched. *)
From Coq Require Import String Sorting.Sorted.
From Verif Require Import Base BaseLemmas MatcherModel.
Open Scope Z_scope.

Lemma zmem_In x l : zmem x l = true <-> In x l.
Proof. unfold zmem. rewrite existsb_exists. split; [intros (y & I & E); apply Z.eqb_eq in E; now subst|]. intros I. exists x. split; [exact I|apply Z.eqb_refl]. Qed.
Lemma zmem_false x l : zmem x l = false <-> ~ In x l.
Proof. rewrite <- zmem_In. destruct (zmem x l); intuition congruence. Qed.
Lemma uinsert_In x y l : In y (uinsert x l) <-> y = x \/ In y l.
Proof.
  induction l as [|z l IH]; cbn; [intuition|]. destruct (Z.ltb_spec x z); [cbn; intuition|]. destruct (Z.eqb_spec x z) as [->|]; [cbn; intuition|]. cbn. rewrite IH. intuition.
Qed.
Lemma unique_In x l : In x (unique l) <-> In x l.
Proof. unfold unique. induction l as [|y l IH]; cbn; [reflexivity|]. rewrite uinsert_In, IH. intuition. Qed.
Lemma uinsert_sorted x l : StronglySorted Z.lt l -> StronglySorted Z.lt (uinsert x l).
Proof.
  induction 1 as [|y l S IH F]; cbn; [repeat constructor|]. rewrite Forall_forall in F. destruct (Z.ltb_spec x y).
  - constructor; [constructor; [assumption|now rewrite Forall_forall]|]. rewrite Forall_forall. intros z [<-|I]; [assumption|]. apply F in I. lia.
  - destruct (Z.eqb_spec x y) as [->|N]; [constructor; [assumption|now rewrite Forall_forall]|]. constructor; [exact IH|]. rewrite Forall_forall. intros z I. apply uinsert_In in I. destruct I as [->|I]; [lia|auto].
Qed.
Lemma unique_sorted l : StronglySorted Z.lt (unique l).
Proof. unfold unique. induction l as [|x l IH]; cbn; [constructor|]. now apply uinsert_sorted. Qed.
Lemma zrange_In a b x : In x (zrange a b) <-> a <= x < b.
Proof.
  unfold zrange. rewrite in_map_iff. split; [intros (i & <- & I); apply in_seq in I; lia|]. intros H. exists (Z.to_nat (x - a)). split; [lia|]. apply in_seq. lia.
Qed.
Lemma zrange_length a b : length (zrange a b) = Z.to_nat (b - a). Proof. unfold zrange. now rewrite map_length, seq_length. Qed.
Lemma zmap_sorted f l : (forall x y : nat, (x < y)%nat -> f x < f y) -> StronglySorted lt l -> StronglySorted Z.lt (map f l).
Proof. intros Hf. induction 1 as [|x l S IH F]; cbn; constructor; [exact IH|]. rewrite Forall_forall in *. intros y I. apply in_map_iff in I as (z & <- & I). auto. Qed.
Lemma seq_lt_sorted : forall n a, StronglySorted lt (seq a n).
Proof. induction n as [|n IH]; intros a; cbn; constructor; [apply IH|]. rewrite Forall_forall. intros x I. apply in_seq in I. lia. Qed.
Lemma zrange_sorted a b : StronglySorted Z.lt (zrange a b).
Proof. unfold zrange. apply zmap_sorted; [intros; lia|apply seq_lt_sorted]. Qed.
Lemma zfilter_sorted (f : Z -> bool) l : StronglySorted Z.lt l -> StronglySorted Z.lt (filter f l).
Proof. induction 1 as [|a l S IH F]; cbn; [constructor|]. destruct (f a); [|exact IH]. constructor; [exact IH|]. rewrite Forall_forall in *. intros x I. apply filter_In in I. apply F, I. Qed.
Lemma mapi_length {A B} (f : Z -> A -> B) l : length (mapi f l) = length l.
Proof. unfold mapi. rewrite map_length, combine_length, seq_length. apply Nat.min_id. Qed.
Lemma combine_seq_error {A} : forall (l : list A) s i, nth_error (combine (seq s (length l)) l) i = option_map (fun x => ((s + i)%nat, x)) (nth_error l i).
Proof.
  induction l as [|x l IH]; intros s i; cbn; [destruct i; reflexivity|]. destruct i; cbn; [now rewrite Nat.add_0_r|]. rewrite IH. destruct (nth_error l i); cbn; [|reflexivity]. do 2 f_equal. lia.
Qed.
Lemma mapi_nth {A B} (f : Z -> A -> B) l i : nth_error (mapi f l) i = option_map (f (Z.of_nat i)) (nth_error l i).
Proof. unfold mapi. rewrite nth_error_map, combine_seq_error. destruct (nth_error l i); reflexivity. Qed.
Lemma ascending_sorted l : ascending l = true <-> StronglySorted Z.le l.
Proof.
  induction l as [|x l IH]; [split; [constructor|reflexivity]|]. split.
  - intros H. destruct l as [|y l]; [repeat constructor|]. apply andb_prop in H as [A B]. apply Z.leb_le in A. apply IH in B. constructor; [exact B|]. inversion B as [|? ? S F]; subst. constructor; [exact A|]. rewrite Forall_forall in *. intros z I. apply F in I. lia.
  - intros S. inversion S as [|? ? S' F]; subst. apply IH in S'. destruct l as [|y l]; [reflexivity|]. change ((x <=? y) && ascending (y :: l) = true)%bool. rewrite S', andb_true_r. apply Z.leb_le. inversion F; assumption.
Qed.
Lemma count_le_spec t l : StronglySorted Z.le l -> forall j x, nth_error l j = Some x -> (Z.of_nat j < count_le t l <-> x <= t).
Proof.
  unfold count_le. induction 1 as [|y l S IH F]; intros j x Hj; [destruct j; discriminate|]. rewrite Forall_forall in F. destruct j as [|j]; cbn [nth_error] in Hj.
  - injection Hj as ->. cbn [filter]. destruct (Z.leb_spec x t); cbn [length]; [lia|]. enough (E : filter (fun z => z <=? t) l = []) by (rewrite E; cbn; lia).
    clear IH. induction l as [|z l IHl]; [reflexivity|]. cbn. destruct (Z.leb_spec z t) as [Q|]; [|apply IHl; [now inversion S|intros w I; apply F; now right]]. specialize (F z (or_introl eq_refl)). lia.
  - cbn [filter]. specialize (IH j x Hj). destruct (Z.leb_spec y t) as [Q|Q]; cbn [length]; [lia|].
    assert (y <= x) by (apply F; eapply nth_error_In; eauto). split; [|lia]. intros H'. apply IH. lia.
Qed.

Lemma filter_len {A} (f : A -> bool) l : (length (filter f l) <= length l)%nat.
Proof. induction l as [|x l IH]; cbn; [lia|]. destruct (f x); cbn; lia. Qed.

(** The pair (i, j) is asked for: all pairs by default, otherwise those at most [maxdt] apart and those at an offset in [seq]. *)
Definition requested (times : list Z) (maxdt : option Z) (sq : option (list Z)) (i j : nat) : Prop :=
  (maxdt = None /\ sq = None) \/
  (exists d ti tj, maxdt = Some d /\ nth_error times i = Some ti /\ nth_error times j = Some tj /\ tj - ti <= d) \/
  (exists s, sq = Some s /\ In (Z.of_nat j - Z.of_nat i) s).

(** Each image i is matched to the later images j, in ascending order and once each, that are requested, and in [imgs] if given. *)
Theorem matching_pairs times maxdt sq imgs rows : StronglySorted Z.le times -> matching_images times maxdt sq imgs = Ok rows ->
  length rows = length times /\
  forall i js, nth_error rows i = Some js -> StronglySorted Z.lt js /\
  forall j, In j js <-> exists k, j = Z.of_nat k /\ (i < k < length times)%nat /\ requested times maxdt sq i k /\ (forall l, imgs = Some l -> In j l).
Proof.
  intros S H. unfold matching_images in H.
  set (n := Z.of_nat (length times)) in *.
  set (m0 := match maxdt, sq with None, None => _ | Some d, _ => _ | None, Some _ => _ end) in H.
  set (m1 := match sq with None => m0 | Some s => _ end) in H.
  set (m2 := match imgs with None => m1 | Some l => _ end) in H.
  assert (E : rows = m2). { destruct sq as [[|]|]; [destruct (existsb _ m2)| |]; congruence. } clear H. subst rows.
  assert (L0 : length m0 = length times). { unfold m0. destruct maxdt; [apply mapi_length|]. destruct sq; [apply map_length|apply mapi_length]. }
  assert (L1 : length m1 = length times). { unfold m1. destruct sq; [now rewrite mapi_length|exact L0]. }
  split. { unfold m2. destruct imgs; [now rewrite map_length|exact L1]. }
  assert (H0 : forall i js, nth_error m0 i = Some js -> StronglySorted Z.lt js /\ forall j, In j js <-> exists k, j = Z.of_nat k /\ (i < k < length times)%nat /\
    ((maxdt = None /\ sq = None) \/ (exists d ti tj, maxdt = Some d /\ nth_error times i = Some ti /\ nth_error times k = Some tj /\ tj - ti <= d))).
  { intros i js Hi. unfold m0 in Hi. destruct maxdt as [d|].
    - rewrite mapi_nth in Hi. destruct (nth_error times i) as [ti|] eqn:Et; [|discriminate]. injection Hi as <-. split; [apply zrange_sorted|]. intros j. rewrite zrange_In. split.
      + intros [A B]. assert (Hc : count_le (ti + d) times <= n). { unfold count_le, n. apply Nat2Z.inj_le. apply filter_len. }
        exists (Z.to_nat j). destruct (nth_error times (Z.to_nat j)) as [tj|] eqn:Ej; [|apply nth_error_None in Ej; unfold n in Hc; lia].
        split; [lia|]. split; [unfold n in Hc; lia|]. right. exists d, ti, tj. pose proof (count_le_spec (ti + d) times S _ _ Ej). repeat split; auto. lia.
      + intros (k & -> & K & [[? _]|(d' & ti' & tj & Ed & E1 & E2 & E3)]); [discriminate|]. injection Ed as <-. assert (ti' = ti) by congruence. subst ti'. pose proof (count_le_spec (ti + d) times S _ _ E2). lia.
    - destruct sq as [s|].
      + rewrite nth_error_map in Hi. destruct (nth_error times i); [|discriminate]. injection Hi as <-. split; [constructor|]. intros j. split; [intros []|]. intros (k & _ & _ & [[_ ?]|(d & ? & ? & ? & _)]); discriminate.
      + rewrite mapi_nth in Hi. destruct (nth_error times i) as [ti|] eqn:Et; [|discriminate]. injection Hi as <-. split; [apply zrange_sorted|]. intros j. rewrite zrange_In. split.
        * intros Hj. exists (Z.to_nat j). unfold n in Hj. split; [lia|]. split; [lia|]. now left.
        * intros (k & -> & K & _). unfold n. lia. }
  assert (H1 : forall i js, nth_error m1 i = Some js -> StronglySorted Z.lt js /\ forall j, In j js <-> exists k, j = Z.of_nat k /\ (i < k < length times)%nat /\ requested times maxdt sq i k).
  { intros i js Hi. unfold m1 in Hi. destruct sq as [s|].
    - rewrite mapi_nth in Hi. destruct (nth_error m0 i) as [r|] eqn:Er; [|discriminate]. injection Hi as <-. split; [apply unique_sorted|]. intros j. rewrite unique_In, in_app_iff, filter_In, in_map_iff, Z.ltb_lt.
      destruct (H0 i r Er) as [_ Hr]. rewrite Hr. split.
      + intros [(k & -> & K & [[? ?]|D])|((x & <- & Ix) & Hx)]; [discriminate| |].
        * exists k. split; [reflexivity|]. split; [exact K|]. right. now left.
        * apply unique_In, filter_In in Ix as [Ix Px]. apply Z.ltb_lt in Px. exists (Z.to_nat (x + Z.of_nat i)). unfold n in Hx. split; [lia|]. split; [lia|]. right. right. exists s. split; [reflexivity|].
          replace (Z.of_nat (Z.to_nat (x + Z.of_nat i)) - Z.of_nat i) with x by lia. exact Ix.
      + intros (k & -> & K & [[_ ?]|[D|(s' & Es & Is)]]); [discriminate| |].
        * left. exists k. auto.
        * injection Es as <-. right. split; [|unfold n; lia]. exists (Z.of_nat k - Z.of_nat i). split; [lia|]. apply unique_In, filter_In. split; [exact Is|]. apply Z.ltb_lt. lia.
    - destruct (H0 i js Hi) as [A B]. split; [exact A|]. intros j. rewrite B. split.
      + intros (k & -> & K & [D|D]); exists k; (split; [reflexivity|]; split; [exact K|]); [now left|right; now left].
      + intros (k & -> & K & [D|[D|(s & ? & _)]]); [exists k; auto|exists k; auto|discriminate]. }
  intros i js Hi. unfold m2 in Hi. destruct imgs as [l|].
  - rewrite nth_error_map in Hi. destruct (nth_error m1 i) as [r|] eqn:Er; [|discriminate]. injection Hi as <-. destruct (H1 i r Er) as [A B]. split; [now apply zfilter_sorted|]. intros j. rewrite filter_In, zmem_In, B. split.
    + intros ((k & -> & K & D) & I). exists k. repeat split; auto; try lia. intros l' [= <-]. exact I.
    + intros (k & -> & K & D & I). split; [exists k; auto|now apply I].
  - destruct (H1 i js Hi) as [A B]. split; [exact A|]. intros j. rewrite B. split.
    + intros (k & -> & K & D). exists k. repeat split; auto; try lia. discriminate.
    + intros (k & -> & K & D & _). exists k. auto.
Qed.
(** It fails only for an empty [seq] (of which some image has a neighbour within [maxdt]). *)
Theorem matching_pairs_total times maxdt sq imgs : sq <> Some [] -> exists rows, matching_images times maxdt sq imgs = Ok rows.
Proof. intros N. unfold matching_images. destruct sq as [[|]|]; [now contradiction N| |]; eexists; reflexivity. Qed.
Theorem matching_empty_seq_refuted times maxdt imgs : StronglySorted Z.le times ->
  let some := exists i j, (i < j < length times)%nat /\ requested times maxdt (Some []) i j /\ (forall l, imgs = Some l -> In (Z.of_nat j) l) in
  (some -> matching_images times maxdt (Some []) imgs = Err IndexError) /\ (~ some -> matching_images times maxdt (Some []) imgs = Ok (map (fun _ => []) times)).
Proof.
  intros S some. destruct (matching_pairs_total times maxdt (Some [0]) imgs ltac:(discriminate)) as [rows E]. destruct (matching_pairs _ _ _ _ _ S E) as [L H].
  assert (Q : matching_images times maxdt (Some []) imgs = if existsb (fun m => negb (length m =? 0)%nat) rows then Err IndexError else Ok rows). { unfold matching_images in E |- *. injection E as <-. reflexivity. }
  assert (Rq : forall i k, (i < k)%nat -> requested times maxdt (Some [0]) i k <-> requested times maxdt (Some []) i k).
  { intros i k K. unfold requested. split; (intros [[_ ?]|[D|(s & Es & I)]]; [discriminate|right; now left|injection Es as <-]); [destruct I as [I|[]]; lia|destruct I]. }
  rewrite Q. split.
  - intros (i & j & K & R & I). replace (existsb _ rows) with true; [reflexivity|]. symmetry. apply existsb_exists. destruct (nth_error rows i) as [js|] eqn:Ei; [|apply nth_error_None in Ei; lia]. exists js. split; [eapply nth_error_In; exact Ei|].
    assert (J : In (Z.of_nat j) js) by (apply (H i js Ei); exists j; repeat split; [lia|lia|apply Rq; [lia|exact R]|exact I]). destruct js; [destruct J|reflexivity].
  - intros N. assert (F : Forall (fun m => m = []) rows).
    { apply Forall_forall. intros js J. apply In_nth_error in J as [i Ei]. destruct js as [|j js]; [reflexivity|]. exfalso. apply N. destruct (proj1 (proj2 (H i _ Ei) j) (or_introl eq_refl)) as (k & -> & K & R & I). exists i, k. split; [lia|]. split; [apply Rq; [lia|exact R]|exact I]. }
    assert (G : rows = map (fun _ => []) times) by (clear - F L; revert times L; induction F as [|m l -> F IH]; intros [|t ts] L; try discriminate; [reflexivity|]; cbn; f_equal; apply IH; now injection L).
    replace (existsb _ rows) with false; [now rewrite G|]. symmetry. rewrite G. clear. induction times; [reflexivity|assumption].
Qed.
Example matching_empty_seq_ex : matching_images [0; 1; 2] (Some 1) (Some []) None = Err IndexError /\ matching_images [0; 10; 20] (Some 5) (Some []) None = Ok [[]; []; []].
Proof. split; reflexivity. Qed.
(** Documented: imgs: "Index of images to require at least one of in each matched image pair".  Only the later image of the pair is looked at:
    no earlier image is matched to an image that is not in imgs. *)
Theorem matching_imgs_refuted times maxdt sq imgs rows i j js : StronglySorted Z.le times -> matching_images times maxdt sq (Some imgs) = Ok rows ->
  In (Z.of_nat i) imgs -> ~ In (Z.of_nat j) imgs -> nth_error rows i = Some js -> ~ In (Z.of_nat j) js.
Proof. intros S E I N Ei J. destruct (matching_pairs _ _ _ _ _ S E) as [_ H]. apply (H i js Ei) in J as (k & _ & _ & _ & Q). apply N, Q. reflexivity. Qed.
Example matching_imgs_ex : matching_images [0; 1; 2] None None (Some [0]) = Ok [[]; []; []] /\ matching_images [0; 1; 2] None None (Some [0; 2]) = Ok [[2]; [2]; []].
Proof. split; reflexivity. Qed.
(** Images that are not in ascending order are refused. *)
Theorem matcher_order times : (new_matcher times = Ok times <-> StronglySorted Z.le times) /\ (new_matcher times = Err ValueError <-> ~ StronglySorted Z.le times).
Proof. unfold new_matcher. rewrite <- ascending_sorted. destruct (ascending times); intuition congruence. Qed.
Print Assumptions matching_pairs.
Example matching_pairs_ex : matching_images [0; 10; 10; 25; 60] (Some 15) (Some [3; 1; -1; 3]) (Some [1; 2; 3; 4]) = Ok [[1; 2; 3]; [2; 3; 4]; [3]; [4]; []].
Proof. reflexivity. Qed.
