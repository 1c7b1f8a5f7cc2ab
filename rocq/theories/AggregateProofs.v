(** Proofs about rasterize_points, compute_cdf, match_cdf. *)
From Verif Require Import Base BaseLemmas HelpersModel HelpersSpec.
From Coq Require Import ZifyBool Sorted Permutation.
Open Scope R_scope.

(** ** unique (integers) *)
Lemma insert_unique_in x l y : In y (insert_unique x l) <-> y = x \/ In y l.
Proof.
  induction l as [|a l IH]; simpl; [intuition|].
  destruct (x <? a)%Z eqn:E; simpl; [intuition|].
  destruct (x =? a)%Z eqn:E2; simpl.
  - assert (x = a) by lia. subst. intuition.
  - rewrite IH. intuition.
Qed.
Lemma insert_unique_sorted x l : StronglySorted Z.lt l -> StronglySorted Z.lt (insert_unique x l).
Proof.
  induction 1 as [|a l Hs IH Hall]; simpl; [repeat constructor|].
  destruct (x <? a)%Z eqn:E.
  - constructor; [constructor; auto|]. constructor; [lia|].
    eapply Forall_impl; [|exact Hall]. simpl. intros. lia.
  - destruct (x =? a)%Z eqn:E2; [constructor; auto|].
    constructor; auto. rewrite Forall_forall in *. intros y Hy.
    apply insert_unique_in in Hy as [->|Hy]; [lia|auto].
Qed.
Lemma unique_Z_in l y : In y (unique_Z l) <-> In y l.
Proof.
  unfold unique_Z. induction l as [|a l IH]; simpl; [tauto|].
  rewrite insert_unique_in, IH. intuition.
Qed.
Lemma unique_Z_sorted l : StronglySorted Z.lt (unique_Z l).
Proof. unfold unique_Z. induction l; simpl; [constructor|apply insert_unique_sorted; auto]. Qed.

Lemma in_combine_nth {A B} (l : list A) (m : list B) i a b :
  nth_error l i = Some a -> nth_error m i = Some b -> In (a, b) (combine l m).
Proof.
  revert m i; induction l as [|x l IH]; intros [|y m] [|i]; simpl; try discriminate.
  - intros E1 E2; injection E1 as ->; injection E2 as ->; auto.
  - intros; right; eapply IH; eauto.
Qed.


Lemma flat_inj nc r c r' c' : (0 <= c < nc)%Z -> (0 <= c' < nc)%Z ->
  (r * nc + c = r' * nc + c')%Z -> r = r' /\ c = c'.
Proof. intros. assert (r = r') by nia. subst. split; lia. Qed.


Lemma ravel_ok nr nc r c : (0 <= r < nr)%Z -> (0 <= c < nc)%Z ->
  ravel_index (nr, nc) (r, c) = Ok (r * nc + c)%Z.
Proof. intros. unfold ravel_index. destruct (_ && _)%bool eqn:E; auto. lia. Qed.

Lemma ravel_all nr nc rows cols : in_shape nr nc rows cols ->
  mapM (ravel_index (nr, nc)) (combine rows cols)
  = Ok (map (fun rc => (fst rc * nc + snd rc)%Z) (combine rows cols)).
Proof.
  intros H. apply mapM_all_ok. intros [r c] Hrc. destruct (H r c Hrc). apply ravel_ok; auto.
Qed.

Lemma values_at_cells nr nc rows cols values r c : in_shape nr nc rows cols ->
  (0 <= r < nr)%Z -> (0 <= c < nc)%Z ->
  values_at (r * nc + c) (map (fun rc => (fst rc * nc + snd rc)%Z) (combine rows cols)) values
  = cell_values rows cols values r c.
Proof.
  intros H Hr Hc. unfold values_at, cell_values.
  assert (Hall : forall rc, In rc (combine rows cols) -> (0 <= fst rc < nr)%Z /\ (0 <= snd rc < nc)%Z)
    by (intros [a b] Hab; apply (H a b Hab)).
  clear H. generalize dependent values. induction (combine rows cols) as [|[a b] l IH]; intros values; simpl; auto.
  destruct values as [|v values]; simpl; auto.
  destruct (Hall (a, b) (or_introl eq_refl)) as [Ha Hb]. simpl in *.
  assert (IH' := IH (fun rc Hrc => Hall rc (or_intror Hrc)) values).
  destruct ((a * nc + b =? r * nc + c)%Z) eqn:E1; destruct ((a =? r)%Z && (b =? c)%Z)%bool eqn:E2; simpl.
  - f_equal. exact IH'.
  - exfalso. apply Z.eqb_eq in E1. apply flat_inj in E1; auto. lia.
  - exfalso. assert (a = r) by lia. assert (b = c) by lia. subst. lia.
  - exact IH'.
Qed.

Lemma rasterize_points_spec nr nc rows cols values :
  length rows = length cols -> length values = length rows -> in_shape nr nc rows cols ->
  exists uidx means, rasterize_points rows cols values (nr, nc) = Ok (uidx, means) /\
    StronglySorted Z.lt uidx /\ length means = length uidx /\
    (forall u, In u uidx <-> exists r c, In (r, c) (combine rows cols) /\ u = (r * nc + c)%Z) /\
    (forall k r c, (0 <= r < nr)%Z -> (0 <= c < nc)%Z -> nth_error uidx k = Some (r * nc + c)%Z ->
       nth_error means k =
         Some (sumR (cell_values rows cols values r c) / IZR (Z.of_nat (length (cell_values rows cols values r c))))).
Proof.
  intros Hl Hv Hin. unfold rasterize_points. rewrite Hl, Nat.eqb_refl. cbn [negb].
  rewrite ravel_all by auto. cbn [bind]. rewrite map_length, combine_length, Hv, Hl, Nat.min_id, Nat.eqb_refl.
  cbn [negb]. eexists; eexists. split; [reflexivity|].
  split; [apply unique_Z_sorted|]. split; [apply map_length|]. split.
  - intros u. rewrite unique_Z_in, in_map_iff. split.
    + intros ([r c] & <- & H). exists r, c. auto.
    + intros (r & c & H & ->). exists (r, c). auto.
  - intros k r c Hr Hc Hk. rewrite nth_error_map, Hk. simpl. f_equal.
    rewrite (values_at_cells nr) by auto. unfold mean. unfold Rdiv. rewrite Rmult_1_l. reflexivity.
Qed.

Lemma rasterize_points_oob nr nc rows cols values : length rows = length cols ->
  ~ in_shape nr nc rows cols -> rasterize_points rows cols values (nr, nc) = Err ValueError.
Proof.
  intros Hl Hn. unfold rasterize_points. rewrite Hl, Nat.eqb_refl. cbn [negb].
  replace (mapM (ravel_index (nr, nc)) (combine rows cols)) with (@Err (list Z) ValueError); [reflexivity|].
  symmetry. unfold in_shape in Hn. clear Hl. induction (combine rows cols) as [|[r c] l IH].
  - exfalso. apply Hn. intros r c [].
  - simpl. destruct ((0 <=? r) && (r <? nr) && (0 <=? c) && (c <? nc))%Z eqn:E; [|reflexivity].
    cbn [bind]. rewrite IH; [reflexivity|]. intros Hall. apply Hn. intros r' c' [H|H].
    + injection H as <- <-. lia.
    + apply Hall; auto.
Qed.

Lemma fold_set_nth {V} (ps : list (Z * V)) (a : list V) :
  NoDup (map fst ps) -> (forall p, In p ps -> (0 <= fst p < Z.of_nat (length a))%Z) ->
  let a' := fold_left (fun acc p => set_nth (Z.to_nat (fst p)) (snd p) acc) ps a in
  length a' = length a /\
  forall i, (i < length a)%nat ->
    (forall v, In (Z.of_nat i, v) ps -> nth_error a' i = Some v) /\
    (~ In (Z.of_nat i) (map fst ps) -> nth_error a' i = nth_error a i).
Proof.
  revert a; induction ps as [|[u v] ps IH]; intros a Hnd Hr; simpl.
  - split; auto. intros i Hi. split; [intros v []|auto].
  - simpl in Hnd. inversion Hnd as [|? ? Hni Hnd']; subst.
    destruct (IH (set_nth (Z.to_nat u) v a)) as [H1 H2]; auto.
    { intros p Hp. rewrite set_nth_length. apply Hr. right; auto. }
    rewrite set_nth_length in *. split; auto. intros i Hi.
    destruct (H2 i Hi) as [A B].
    assert (Hu : (0 <= u < Z.of_nat (length a))%Z) by (apply (Hr (u, v)); left; auto).
    split.
    + intros w [E|Hw]; [|apply A; auto]. injection E as -> ->.
      rewrite B by auto. rewrite Nat2Z.id. apply nth_error_set_nth_eq; auto.
    + intros Hn. rewrite B by tauto. apply nth_error_set_nth_neq.
      intros E. apply Hn. left. lia.
Qed.

Lemma sorted_lt_NoDup l : StronglySorted Z.lt l -> NoDup l.
Proof.
  induction 1 as [|a l Hs IH Hall]; constructor; auto.
  intros Hin. rewrite Forall_forall in Hall. specialize (Hall a Hin). lia.
Qed.

Lemma combine_map_fst {A B} (l : list A) (m : list B) : length l = length m -> map fst (combine l m) = l.
Proof. revert m; induction l; destruct m; simpl; intros; try discriminate; f_equal; auto. Qed.

Lemma rasterize_into_spec {V} (inj : R -> V) nr nc rows cols values (a : list V) :
  length rows = length cols -> length values = length rows -> in_shape nr nc rows cols ->
  (0 <= nc)%Z -> Z.of_nat (length a) = (nr * nc)%Z ->
  exists a', rasterize_into inj rows cols values (nr, nc) a = Ok a' /\ length a' = length a /\
    forall r c, (0 <= r < nr)%Z -> (0 <= c < nc)%Z ->
      let here := cell_values rows cols values r c in
      nth_error a' (Z.to_nat (r * nc + c)) =
        match here with
        | [] => nth_error a (Z.to_nat (r * nc + c))
        | _ => Some (inj (sumR here / IZR (Z.of_nat (length here))))
        end.
Proof.
  intros Hl Hv Hin Hnc Ha. unfold rasterize_into.
  destruct (rasterize_points_spec nr nc rows cols values Hl Hv Hin)
    as (uidx & means & E & Hs & Hlen & Hu & Hm).
  rewrite E. cbn [bind].
  set (ps := map (fun p : Z * R => (fst p, inj (snd p))) (combine uidx means)).
  assert (Hfold : fold_left (fun acc p => set_nth (Z.to_nat (fst p)) (inj (snd p)) acc) (combine uidx means) a
       = fold_left (fun acc p => set_nth (Z.to_nat (fst p)) (snd p) acc) ps a).
  { unfold ps. clear. generalize a. induction (combine uidx means); simpl; auto. }
  rewrite Hfold.
  assert (Hfst : map fst ps = uidx).
  { unfold ps. rewrite map_map. simpl. apply combine_map_fst. auto. }
  destruct (fold_set_nth ps a) as [H1 H2].
  { rewrite Hfst. apply sorted_lt_NoDup. exact Hs. }
  { intros p Hp. assert (Hf : In (fst p) uidx) by (rewrite <- Hfst; apply in_map; auto).
    apply Hu in Hf as (r & c & Hrc & ->). destruct (Hin r c Hrc). nia. }
  eexists. split; [reflexivity|]. split; [exact H1|].
  intros r c Hr Hc. set (here := cell_values rows cols values r c).
  assert (Hi : (Z.to_nat (r * nc + c) < length a)%nat) by nia.
  destruct (H2 _ Hi) as [A B]. rewrite Z2Nat.id in A, B by nia. rewrite Hfst in B.
  assert (Hne : here <> [] <-> In (r * nc + c)%Z uidx).
  { rewrite Hu. unfold here, cell_values. split.
    - intros Hne. destruct (filter _ _) as [|[[r' c'] v] l] eqn:Ef; [simpl in Hne; congruence|].
      assert (Hx : In ((r', c'), v) (filter (fun p => ((fst (fst p) =? r)%Z && (snd (fst p) =? c)%Z)%bool)
         (combine (combine rows cols) values))) by (rewrite Ef; left; auto).
      apply filter_In in Hx as [Hx1 Hx2]. simpl in Hx2. apply in_combine_l in Hx1.
      exists r', c'. split; auto. assert (r' = r) by lia. assert (c' = c) by lia. congruence.
    - intros (r' & c' & Hrc & Eq). destruct (Hin r' c' Hrc) as [Hr' Hc'].
      apply flat_inj in Eq; auto. destruct Eq as [-> ->].
      apply In_nth_error in Hrc as [k Hk].
      assert (Hkl : (k < length values)%nat).
      { rewrite Hv. assert (k < length (combine rows cols))%nat by (apply nth_error_Some; congruence).
        rewrite combine_length in H. lia. }
      destruct (nth_error values k) as [v|] eqn:Ev; [|apply nth_error_None in Ev; lia].
      assert (Hx : In ((r', c'), v) (filter (fun p => ((fst (fst p) =? r')%Z && (snd (fst p) =? c')%Z)%bool)
         (combine (combine rows cols) values))).
      { apply filter_In. split; [|simpl; rewrite !Z.eqb_refl; auto].
        clear -Hk Ev. revert k values Hk Ev. induction (combine rows cols) as [|p l IH];
          intros [|k] [|w values] Hk Ev; simpl in *; try discriminate.
        - injection Hk as ->. injection Ev as ->. left; auto.
        - right. eapply IH; eauto. }
      intros Hnil. apply (in_map snd) in Hx. rewrite Hnil in Hx. exact Hx. }
  destruct here as [|h t] eqn:Eh.
  - apply B. intros Hin'. apply Hne in Hin'. congruence.
  - rewrite <- Eh. assert (Hin' : In (r * nc + c)%Z uidx) by (apply Hne; congruence).
    apply In_nth_error in Hin' as [k Hk]. pose proof (Hm k r c Hr Hc Hk) as Hmk.
    apply A. unfold ps. apply in_map_iff. eexists. split; [|].
    2:{ exact (in_combine_nth _ _ _ _ _ Hk Hmk). }
    reflexivity.
Qed.

(** ** compute_cdf *)
Lemma insert_uniqueR_in x l y : In y (insert_uniqueR x l) <-> y = x \/ In y l.
Proof.
  induction l as [|a l IH]; simpl; [intuition|].
  destruct (Rltb_spec x a); simpl; [intuition|].
  destruct (Reqb_spec x a); simpl.
  - subst. intuition.
  - rewrite IH. intuition.
Qed.
Lemma insert_uniqueR_sorted x l : StronglySorted Rlt l -> StronglySorted Rlt (insert_uniqueR x l).
Proof.
  induction 1 as [|a l Hs IH Hall]; simpl; [repeat constructor|].
  destruct (Rltb_spec x a).
  - constructor; [constructor; auto|]. constructor; [lra|].
    eapply Forall_impl; [|exact Hall]. simpl. intros. lra.
  - destruct (Reqb_spec x a); [constructor; auto|].
    constructor; auto. rewrite Forall_forall in *. intros y Hy.
    apply insert_uniqueR_in in Hy as [->|Hy]; [lra|auto].
Qed.
Lemma unique_R_in l y : In y (unique_R l) <-> In y l.
Proof.
  unfold unique_R. induction l as [|a l IH]; simpl; [tauto|].
  rewrite insert_uniqueR_in, IH. intuition.
Qed.
Lemma unique_R_sorted l : StronglySorted Rlt (unique_R l).
Proof. unfold unique_R. induction l; simpl; [constructor|apply insert_uniqueR_sorted; auto]. Qed.

Lemma index_of_spec x l : In x l -> nth_error l (index_of x l) = Some x.
Proof.
  induction l as [|a l IH]; simpl; [tauto|]. intros H.
  destruct (Reqb_spec x a); [subst; reflexivity|]. simpl. apply IH. destruct H; congruence.
Qed.

Definition count_le (v : R) (a : list R) : Z := Z.of_nat (length (filter (fun y => Rleb y v) a)).
Definition count_lt (v : R) (a : list R) : Z := Z.of_nat (length (filter (fun y => Rltb y v) a)).

Lemma count_split v a : IZR (count_le v a) = IZR (count_lt v a) + count_R v a.
Proof.
  unfold count_le, count_lt, count_R. rewrite <- plus_IZR. f_equal. rewrite <- Nat2Z.inj_add. f_equal.
  induction a as [|y a IH]; simpl; auto.
  destruct (Rleb_spec y v), (Rltb_spec y v), (Reqb_spec y v); simpl; try lra; rewrite IH; lia.
Qed.

(** for consecutive unique values u < v with nothing of [a] strictly between,
    count_lt v = count_le u *)
Lemma count_gap u v a : u < v -> (forall y, In y a -> y <= u \/ v <= y) -> count_lt v a = count_le u a.
Proof.
  intros Huv Hg. unfold count_le, count_lt. f_equal. f_equal. apply filter_ext_in.
  intros y Hy. destruct (Hg y Hy); destruct (Rltb_spec y v), (Rleb_spec y u); auto; lra.
Qed.

Lemma cumsum_from_shift s l : cumsum_from s l = map (Rplus s) (cumsum_from 0 l).
Proof.
  revert s; induction l as [|x l IH]; intros s; simpl; auto.
  rewrite (IH (s + x)), (IH (0 + x)). rewrite map_map. f_equal; [lra|].
  apply map_ext. intros; lra.
Qed.

Lemma cumsum_from_length s l : length (cumsum_from s l) = length l.
Proof. revert s; induction l; intros; simpl; auto. Qed.

(** cumulative counts of the sorted unique values are the counts of <= *)
Lemma cumsum_counts a vs lo : StronglySorted Rlt vs ->
  (forall y, In y a -> In y vs \/ (exists l, lo = Some l /\ y <= l)) ->
  (forall l, lo = Some l -> Forall (Rlt l) vs) ->
  cumsum_from (match lo with Some l => IZR (count_le l a) | None => 0 end) (map (fun v => count_R v a) vs)
  = map (fun v => IZR (count_le v a)) vs.
Proof.
  intros Hs. revert lo. induction Hs as [|v vs Hs IH Hall]; intros lo Hin Hlo; simpl; auto.
  assert (E : match lo with Some l => IZR (count_le l a) | None => 0 end + count_R v a = IZR (count_le v a)).
  { rewrite count_split. f_equal. rewrite Forall_forall in Hall. destruct lo as [l|].
    - f_equal. symmetry. apply count_gap.
      + specialize (Hlo l eq_refl). inversion Hlo; auto.
      + intros y Hy. destruct (Hin y Hy) as [[<-|H]|(l' & E & H)].
        * right; lra.
        * right. specialize (Hall y H). lra.
        * injection E as <-. left; auto.
    - unfold count_lt. replace (filter (fun y => Rltb y v) a) with (@nil R); [reflexivity|].
      symmetry. destruct (filter (fun y => Rltb y v) a) as [|y l] eqn:Ef; auto. exfalso.
      assert (Hy : In y (filter (fun y => Rltb y v) a)) by (rewrite Ef; left; auto).
      apply filter_In in Hy as [Hy1 Hy2]. apply Rltb_true in Hy2.
      destruct (Hin y Hy1) as [[<-|H]|(l' & E & _)]; [lra| |discriminate].
      specialize (Hall y H). lra. }
  rewrite E. f_equal. apply (IH (Some v)).
  - intros y Hy. destruct (Hin y Hy) as [[<-|H]|(l & El & H)].
    + right. exists v. split; auto; lra.
    + left; auto.
    + right. exists v. split; auto. specialize (Hlo l El). inversion Hlo; subst. lra.
  - intros l El. injection El as <-. exact Hall.
Qed.

Lemma compute_cdf_eq a : 
  compute_cdf a = (unique_R a,
                   map (fun v => IZR (count_le v a) / IZR (Z.of_nat (length a))) (unique_R a),
                   map (fun x => index_of x (unique_R a)) a).
Proof.
  unfold compute_cdf, cumsum. 
  rewrite (cumsum_counts a (unique_R a) None (unique_R_sorted a)).
  - rewrite map_map. reflexivity.
  - intros y Hy. left. apply unique_R_in. auto.
  - discriminate.
Qed.

Lemma count_le_mono u v a : u <= v -> (count_le u a <= count_le v a)%Z.
Proof.
  intros H. unfold count_le. apply inj_le. induction a as [|y a IH]; simpl; auto.
  destruct (Rleb_spec y u), (Rleb_spec y v); simpl; try lra; lia.
Qed.
Lemma count_le_lt u v a : u < v -> In v a -> (count_le u a < count_le v a)%Z.
Proof.
  intros H Hin. unfold count_le. apply inj_lt.
  induction a as [|y a IH]; simpl; [destruct Hin|].
  assert (Hm : forall b, (length (filter (fun y => Rleb y u) b) <= length (filter (fun y => Rleb y v) b))%nat).
  { intros b. induction b as [|z b IHb]; simpl; auto.
    destruct (Rleb_spec z u), (Rleb_spec z v); simpl; try lra; lia. }
  destruct Hin as [->|Hin].
  - destruct (Rleb_spec v u), (Rleb_spec v v); simpl; try lra. specialize (Hm a). lia.
  - specialize (IH Hin). destruct (Rleb_spec y u), (Rleb_spec y v); simpl; try lra; lia.
Qed.
Lemma count_le_pos v a : In v a -> (0 < count_le v a)%Z.
Proof.
  intros H. unfold count_le. assert (In v (filter (fun y => Rleb y v) a)).
  { apply filter_In. split; auto. apply Rleb_true. lra. }
  destruct (filter _ _); [destruct H0|simpl; lia].
Qed.
Lemma count_le_max v a : (forall y, In y a -> y <= v) -> count_le v a = Z.of_nat (length a).
Proof.
  intros H. unfold count_le. f_equal. induction a as [|y a IH]; simpl; auto.
  destruct (Rleb_spec y v); simpl; [rewrite IH; auto; intros; apply H; right; auto|].
  exfalso. apply n. apply H. left; auto.
Qed.

Lemma sorted_map_strict (f : R -> R) l : StronglySorted Rlt l ->
  (forall x y, In x l -> In y l -> x < y -> f x < f y) -> StronglySorted Rlt (map f l).
Proof.
  induction 1 as [|a l Hs IH Hall]; simpl; intros Hf; constructor.
  - apply IH. intros; apply Hf; auto.
  - rewrite Forall_forall in *. intros y Hy. apply in_map_iff in Hy as (x & <- & Hx). apply Hf; auto.
Qed.

Lemma last_cons_max l d : StronglySorted Rlt l -> l <> [] -> In (last l d) l /\ forall y, In y l -> y <= last l d.
Proof.
  induction 1 as [|a l Hs IH Hall]; [congruence|]. intros _.
  destruct l as [|b l].
  - simpl. split; auto. intros y [<-|[]]; lra.
  - destruct IH as [H1 H2]; [congruence|].
    change (last (a :: b :: l) d) with (last (b :: l) d). split; [right; auto|].
    intros y [<-|Hy]; auto. rewrite Forall_forall in Hall. specialize (Hall _ H1). lra.
Qed.

Lemma compute_cdf_spec a : a <> [] ->
  let '(values, quantiles, inverse) := compute_cdf a in
  let n := IZR (Z.of_nat (length a)) in
  StronglySorted Rlt values /\ (forall v, In v values <-> In v a) /\
  length quantiles = length values /\ length inverse = length a /\
  (forall i x, nth_error a i = Some x ->
     exists k, nth_error inverse i = Some k /\ nth_error values k = Some x) /\
  (forall k v, nth_error values k = Some v ->
     nth_error quantiles k = Some (IZR (Z.of_nat (length (filter (fun y => Rleb y v) a))) / n)) /\
  StronglySorted Rlt quantiles /\ (forall q, In q quantiles -> 0 < q <= 1) /\ last quantiles 0 = 1.
Proof.
  intros Hne. rewrite compute_cdf_eq. cbv zeta.
  assert (Hn : 0 < IZR (Z.of_nat (length a))) by (apply IZR_lt; destruct a; [congruence|simpl; lia]).
  assert (Hune : unique_R a <> []).
  { destruct a as [|x a']; [congruence|]. intros E. assert (In x (unique_R (x :: a'))) by (apply unique_R_in; left; auto).
    rewrite E in H. destruct H. }
  split; [apply unique_R_sorted|]. split; [intros; apply unique_R_in|].
  split; [apply map_length|]. split; [apply map_length|].
  split; [intros i x Hi; exists (index_of x (unique_R a)); split;
    [rewrite nth_error_map, Hi; reflexivity|apply index_of_spec, unique_R_in; eapply nth_error_In; eauto]|].
  split; [intros k v Hk; rewrite nth_error_map, Hk; reflexivity|].
  split.
  { apply sorted_map_strict; [apply unique_R_sorted|]. intros x y _ Hy Hxy.
    apply Rmult_lt_compat_r; [apply Rinv_0_lt_compat; auto|]. apply IZR_lt. apply count_le_lt; auto.
    apply unique_R_in; auto. }
  split.
  { intros q Hq. apply in_map_iff in Hq as (v & <- & Hv). apply (proj1 (unique_R_in a v)) in Hv.
    pose proof (count_le_pos v a Hv). apply IZR_lt in H.
    assert (count_le v a <= Z.of_nat (length a))%Z.
    { unfold count_le. clear. induction a; simpl; [lia|]. destruct (Rleb a v); simpl; lia. }
    apply IZR_le in H0. split; [apply Rdiv_lt_0_compat; auto|].
    apply Rmult_le_reg_r with (IZR (Z.of_nat (length a))); auto. unfold Rdiv. rewrite Rmult_assoc, Rinv_l; lra. }
  destruct (exists_last Hune) as (l & v & E).
  pose proof (last_cons_max (unique_R a) 0 (unique_R_sorted a) Hune) as [H1 H2].
  rewrite E in *. rewrite map_app. simpl. rewrite last_last in *. 
  rewrite count_le_max; [apply Rinv_r; lra|]. intros y Hy. apply H2. rewrite <- E. apply unique_R_in; auto.
Qed.

(** ** interp / match_cdf *)
Definition pts_sorted (x0 f0 : R) (pts : list (R * R)) : Prop :=
  StronglySorted (fun a b => fst a < fst b /\ snd a <= snd b) ((x0, f0) :: pts).

Lemma last_indep (l : list R) d d' : l <> [] -> last l d = last l d'.
Proof. induction l as [|a [|b l] IH]; intros H; [congruence|reflexivity|]. apply IH. congruence. Qed.

Lemma interp_in_bounds pts : forall x x0 f0, pts_sorted x0 f0 pts -> x0 <= x ->
  f0 <= interp_in x x0 f0 pts <= last (map snd pts) f0.
Proof.
  induction pts as [|[x1 f1] pts IH]; intros x x0 f0 Hs Hx; simpl; [lra|].
  inversion Hs as [|? ? Hs' Hall]; subst. inversion Hall as [|? ? [H1 H2] Hall']; subst. simpl in *.
  assert (Hlast : f1 <= match map snd pts with [] => f1 | _ :: _ => last (map snd pts) f0 end).
  { destruct pts as [|p pts]; simpl; [lra|].
    assert (G : forall l d, l <> [] -> Forall (fun b : R * R => f1 <= snd b) l -> f1 <= last (map snd l) d).
    { intros l d. induction l as [|q [|r l] IHl]; intros Hne Hf; [congruence| |].
      - inversion Hf; auto.
      - change (last (map snd (q :: r :: l)) d) with (last (map snd (r :: l)) d).
        apply IHl; [congruence|]. inversion Hf; auto. }
    change (f1 <= last (map snd (p :: pts)) f0). apply G; [congruence|].
    inversion Hs' as [|? ? _ Hf]; subst. eapply Forall_impl; [|exact Hf]. simpl. intros; tauto. }
  destruct (Rleb_spec x1 x) as [r|].
  - specialize (IH x x1 f1 Hs' r). clear r. destruct pts as [|p pts]; simpl in *; [lra|].
    split; [lra|]. destruct IH as [_ IH]. 
    replace (match map snd pts with [] => snd p | _ :: _ => last (map snd pts) f0 end)
      with (match map snd pts with [] => snd p | _ :: _ => last (map snd pts) f1 end); [exact IH|].
    destruct (map snd pts) as [|w l]; auto. apply last_indep. congruence.
  - destruct (Reqb_spec x x0); [lra|].
    assert (Hd : 0 <= (x - x0) / (x1 - x0) <= 1).
    { split; [apply Rdiv_nonneg; lra|]. apply Rmult_le_reg_r with (x1 - x0); [lra|].
      unfold Rdiv. rewrite Rmult_assoc, Rinv_l; lra. }
    replace (f0 + (f1 - f0) / (x1 - x0) * (x - x0)) with (f0 + (f1 - f0) * ((x - x0) / (x1 - x0))) by (field; lra).
    nra.
Qed.

Lemma interp_in_mono pts : forall x y x0 f0, pts_sorted x0 f0 pts -> x0 <= x -> x <= y ->
  interp_in x x0 f0 pts <= interp_in y x0 f0 pts.
Proof.
  induction pts as [|[x1 f1] pts IH]; intros x y x0 f0 Hs Hx Hxy; simpl; [lra|].
  inversion Hs as [|? ? Hs' Hall]; subst. inversion Hall as [|? ? [H1 H2] Hall']; subst. simpl in *.
  destruct (Rleb_spec x1 x), (Rleb_spec x1 y); try lra.
  - apply IH; auto.
  - assert (f1 <= interp_in y x1 f1 pts) by (apply (interp_in_bounds pts); auto).
    destruct (Reqb_spec x x0); [lra|].
    assert (Hd : (x - x0) / (x1 - x0) <= 1).
    { apply Rmult_le_reg_r with (x1 - x0); [lra|]. unfold Rdiv. rewrite Rmult_assoc, Rinv_l; lra. }
    assert (0 <= (x - x0) / (x1 - x0)) by (apply Rdiv_nonneg; lra).
    replace (f0 + (f1 - f0) / (x1 - x0) * (x - x0)) with (f0 + (f1 - f0) * ((x - x0) / (x1 - x0))) by (field; lra).
    nra.
  - assert (Hsl : 0 <= (f1 - f0) / (x1 - x0)) by (apply Rdiv_nonneg; lra).
    destruct (Reqb_spec x x0), (Reqb_spec y x0); subst; nra.
Qed.

Lemma interp_in_node pts : forall x0 f0, pts_sorted x0 f0 pts ->
  forall x f, In (x, f) ((x0, f0) :: pts) -> interp_in x x0 f0 pts = f.
Proof.
  induction pts as [|[x1 f1] pts IH]; intros x0 f0 Hs x f Hin; simpl.
  - destruct Hin as [E|[]]. congruence.
  - inversion Hs as [|? ? Hs' Hall]; subst. inversion Hall as [|? ? [H1 H2] Hall']; subst. simpl in *.
    destruct Hin as [E|Hin].
    + injection E as -> ->. destruct (Rleb_spec x1 x); [lra|]. destruct (Reqb_spec x x); [auto|lra].
    + destruct (Rleb_spec x1 x) as [|Hn].
      * apply IH; auto.
      * exfalso. apply Hn. destruct Hin as [E|Hin]; [injection E as -> ->; lra|].
        inversion Hs' as [|? ? _ Hf]; subst. rewrite Forall_forall in Hf. specialize (Hf _ Hin). simpl in Hf. lra.
Qed.

Lemma combine_sorted xs fs : StronglySorted Rlt xs -> StronglySorted Rlt fs ->
  StronglySorted (fun a b : R * R => fst a < fst b /\ snd a <= snd b) (combine xs fs).
Proof.
  intros Hx. revert fs. induction Hx as [|x xs Hxs IH Hall]; intros fs Hf; simpl; [constructor|].
  destruct Hf as [|f fs Hfs Hallf]; constructor; auto.
  rewrite Forall_forall in *. intros [y g] Hin. simpl.
  split; [apply Hall; eapply in_combine_l; eauto|].
  apply Rlt_le, Hallf. eapply in_combine_r; eauto.
Qed.

Definition interp_total (x : R) (xp fp : list R) : R :=
  match combine xp fp with
  | [] => 0
  | (x0, f0) :: r => if Rltb x x0 then f0 else interp_in x x0 f0 r
  end.

Lemma interp_total_mono xp fp x y : StronglySorted Rlt xp -> StronglySorted Rlt fp -> x <= y ->
  interp_total x xp fp <= interp_total y xp fp.
Proof.
  intros Hx Hf Hxy. pose proof (combine_sorted xp fp Hx Hf) as Hs. unfold interp_total.
  destruct (combine xp fp) as [|[x0 f0] r]; [lra|].
  destruct (Rltb_spec x x0), (Rltb_spec y x0); try lra.
  - apply (interp_in_bounds r); auto. lra.
  - apply interp_in_mono; auto. lra.
Qed.
Lemma interp_total_bounds xp fp x lo hi : StronglySorted Rlt xp -> StronglySorted Rlt fp ->
  length xp = length fp -> fp <> [] ->
  (forall f, In f fp -> lo <= f <= hi) -> lo <= interp_total x xp fp <= hi.
Proof.
  intros Hx Hf Hl Hne Hb. pose proof (combine_sorted xp fp Hx Hf) as Hs. unfold interp_total.
  destruct (combine xp fp) as [|[x0 f0] r] eqn:E.
  - exfalso. destruct xp, fp; simpl in *; try discriminate; try congruence.
  - assert (Hall : forall p, In p ((x0, f0) :: r) -> lo <= snd p <= hi).
    { intros [a b] Hp. rewrite <- E in Hp. apply in_combine_r in Hp. apply Hb; auto. }
    pose proof (Hall _ (or_introl eq_refl)) as H0. simpl in H0.
    destruct (Rltb_spec x x0); [lra|].
    pose proof (interp_in_bounds r x x0 f0 Hs ltac:(lra)) as Hi.
    assert (lo <= last (map snd r) f0 <= hi); [|lra].
    destruct r as [|p r']; [simpl; lra|].
    assert (G : forall (l : list R) d, l <> [] -> In (last l d) l).
    { clear. induction l as [|a [|b l] IH]; intros d H; [congruence|left; auto|].
      right. apply IH. congruence. }
    assert (H : In (last (map snd (p :: r')) f0) (map snd (p :: r'))) by (apply G; discriminate).
    apply in_map_iff in H as (q & Eq & Hq). rewrite <- Eq. apply Hall. right; auto.
Qed.
Lemma interp_total_node xp fp i x f : StronglySorted Rlt xp -> StronglySorted Rlt fp ->
  nth_error xp i = Some x -> nth_error fp i = Some f -> interp_total x xp fp = f.
Proof.
  intros Hx Hf Hi Hj. pose proof (combine_sorted xp fp Hx Hf) as Hs. unfold interp_total.
  pose proof (in_combine_nth _ _ _ _ _ Hi Hj) as Hin.
  destruct (combine xp fp) as [|[x0 f0] r]; [destruct Hin|].
  destruct (Rltb_spec x x0).
  - exfalso. inversion Hs as [|? ? _ Hall]; subst. rewrite Forall_forall in Hall.
    destruct Hin as [E|Hin]; [injection E as -> ->; lra|]. specialize (Hall _ Hin). simpl in Hall. lra.
  - apply interp_in_node; auto.
Qed.

Lemma np_interp_total x xp fp : length xp = length fp -> fp <> [] ->
  np_interp x xp fp = Ok (interp_total x xp fp).
Proof.
  intros Hl Hne. unfold np_interp, interp_total. destruct xp, fp; simpl in *; try discriminate; try congruence.
Qed.

Lemma match_cdf_array_eq a b : a <> [] -> b <> [] ->
  match_cdf_array a b = Ok (map (fun x => interp_total (IZR (count_le x a) / IZR (Z.of_nat (length a)))
     (map (fun v => IZR (count_le v b) / IZR (Z.of_nat (length b))) (unique_R b)) (unique_R b)) a).
Proof.
  intros Ha Hb. unfold match_cdf_array, match_cdf. rewrite !compute_cdf_eq. cbn [fst snd].
  set (qb := map _ (unique_R b)).
  assert (Hub : unique_R b <> []).
  { destruct b as [|x b']; [congruence|]. intros E. assert (In x (unique_R (x :: b'))) by (apply unique_R_in; left; auto).
    rewrite E in H. destruct H. }
  rewrite (mapM_all_ok _ (fun q => interp_total q qb (unique_R b))).
  2:{ intros x _. apply np_interp_total; auto. unfold qb. apply map_length. }
  cbn [bind]. f_equal. rewrite map_map. rewrite map_map. apply map_ext_in. intros x Hx.
  set (h := fun x0 => interp_total _ qb (unique_R b)).
  assert (Hk : nth_error (unique_R a) (index_of x (unique_R a)) = Some x) by (apply index_of_spec, unique_R_in; auto).
  apply nth_error_nth. rewrite nth_error_map, Hk. reflexivity.
Qed.

Lemma match_cdf_spec a b : a <> [] -> b <> [] ->
  exists r, match_cdf_array a b = Ok r /\ length r = length a /\
    (forall i j x y u v, nth_error a i = Some x -> nth_error a j = Some y -> nth_error r i = Some u ->
       nth_error r j = Some v -> x <= y -> u <= v) /\
    (forall lo hi, (forall z, In z b -> lo <= z <= hi) -> forall u, In u r -> lo <= u <= hi) /\
    (b = a -> r = a).
Proof.
  intros Ha Hb. rewrite match_cdf_array_eq by auto. eexists; split; [reflexivity|].
  assert (Hna : 0 < IZR (Z.of_nat (length a))) by (apply IZR_lt; destruct a; [congruence|simpl; lia]).
  pose proof (compute_cdf_spec b Hb) as Hcdf. rewrite compute_cdf_eq in Hcdf. cbv zeta in Hcdf.
  destruct Hcdf as (V1 & V2 & V3 & _ & _ & V6 & V7 & _).
  assert (Hub : unique_R b <> []).
  { destruct b as [|x b']; [congruence|]. intros E. assert (In x (unique_R (x :: b'))) by (apply unique_R_in; left; auto).
    rewrite E in H. destruct H. }
  split; [apply map_length|]. split; [|split].
  - intros i j x y u v Hi Hj Hu Hv Hxy.
    rewrite nth_error_map, Hi in Hu. rewrite nth_error_map, Hj in Hv. simpl in *.
    injection Hu as <-. injection Hv as <-. apply interp_total_mono; auto.
    apply Rmult_le_compat_r; [apply Rlt_le, Rinv_0_lt_compat; auto|]. apply IZR_le. apply count_le_mono; auto.
  - intros lo hi Hz u Hu. apply in_map_iff in Hu as (x & <- & Hx).
    apply interp_total_bounds; auto. intros f Hf. apply Hz. apply V2; auto.
  - intros ->. transitivity (map (fun x : R => x) a); [|apply map_id]. apply map_ext_in. intros x Hx.
    assert (Hk : nth_error (unique_R a) (index_of x (unique_R a)) = Some x) by (apply index_of_spec, unique_R_in; auto).
    apply (interp_total_node _ _ (index_of x (unique_R a))); auto.
    rewrite (V6 _ _ Hk). unfold count_le. reflexivity.
Qed.
