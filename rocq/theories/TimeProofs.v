(** Proofs about parse_datetimes, match_datetimes and Observer. *)
From Verif Require Import Base BaseLemmas HelpersModel HelpersSpec NearestProofs TimeModel TimeSpec.
From Coq Require Import Sorting.Sorted.
Open Scope Z_scope.

(** ** argmin over Z *)
Lemma zargmin_from_spec l best ibest i :
  let k := argmin_from Z.ltb best ibest i l in
  (k = ibest /\ (forall j, (j < length l)%nat -> best <= nth j l 0)) \/
  (exists m, (m < length l)%nat /\ k = (i + m)%nat /\ nth m l 0 < best /\ (forall j, (j < length l)%nat -> nth m l 0 <= nth j l 0)
     /\ forall j, (j < m)%nat -> nth m l 0 < nth j l 0).
Proof.
  revert best ibest i. induction l as [|x l IH]; intros best ibest i; cbn [argmin_from]; [left; split; [reflexivity|intros j H; cbn in H; lia]|].
  destruct (Z.ltb_spec x best) as [H|H].
  - right. destruct (IH x i (S i)) as [[E L]|(m & Lm & E & H1 & H2 & H3)].
    + exists 0%nat. split; [cbn; lia|]. split; [rewrite E; lia|]. split; [exact H|]. split.
      * intros [|j] Hj; cbn in *; [lia|apply L; lia].
      * intros j Hj. lia.
    + exists (S m). split; [cbn; lia|]. split; [rewrite E; lia|]. cbn [nth]. split; [lia|]. split.
      * intros [|j] Hj; cbn in *; [lia|apply H2; lia].
      * intros [|j] Hj; cbn; [lia|apply H3; lia].
  - destruct (IH best ibest (S i)) as [[E L]|(m & Lm & E & H1 & H2 & H3)].
    + left. split; [exact E|]. intros [|j] Hj; cbn in *; [lia|apply L; lia].
    + right. exists (S m). split; [cbn; lia|]. split; [rewrite E; lia|]. cbn [nth]. split; [lia|]. split.
      * intros [|j] Hj; cbn in *; [lia|apply H2; lia].
      * intros [|j] Hj; cbn; [lia|apply H3; lia].
Qed.
Lemma zargmin_spec l : l <> [] -> exists k, argmin Z.ltb l = Ok k /\ (k < length l)%nat
  /\ (forall j, (j < length l)%nat -> nth k l 0 <= nth j l 0) /\ (forall j, (j < k)%nat -> nth k l 0 < nth j l 0).
Proof.
  destruct l as [|x l]; [congruence|]. intros _. cbn [argmin]. eexists. split; [reflexivity|].
  destruct (zargmin_from_spec l x 0 1) as [[E L]|(m & Lm & E & H1 & H2 & H3)]; rewrite E.
  - split; [cbn; lia|]. split; [intros [|j] Hj; cbn in *; [lia|apply L; lia]|intros j Hj; lia].
  - cbn [Nat.add nth length]. split; [lia|]. split; [intros [|j] Hj; cbn in *; [lia|apply H2; lia]|].
    intros [|j] Hj; cbn; [lia|apply H3; lia].
Qed.
Lemma nth_dist d ts k : (k < length ts)%nat -> nth k (map (fun t => Z.abs (d - t)) ts) 0 = Z.abs (d - nth k ts 0).
Proof. intros H. rewrite (nth_indep _ 0 (Z.abs (d - 0))) by (rewrite map_length; exact H). apply (map_nth (fun t => Z.abs (d - t))). Qed.
Lemma argmin_nearest d ts : ts <> [] -> exists k, argmin Z.ltb (map (fun t => Z.abs (d - t)) ts) = Ok k /\ nearest_at d ts k.
Proof.
  intros N. destruct (zargmin_spec (map (fun t => Z.abs (d - t)) ts)) as (k & E & L & H1 & H2).
  { destruct ts; [congruence|discriminate]. }
  rewrite map_length in *. exists k. split; [exact E|]. split; [exact L|]. split.
  - intros t Ht. apply (In_nth _ _ 0) in Ht. destruct Ht as (j & Hj & <-). specialize (H1 j Hj). rewrite !nth_dist in H1 by assumption. exact H1.
  - intros j Hj. specialize (H2 j Hj). rewrite !nth_dist in H2 by lia. exact H2.
Qed.
Lemma nearest_unique d ts j k : nearest_at d ts j -> nearest_at d ts k -> j = k.
Proof.
  intros (L1 & A1 & B1) (L2 & A2 & B2). destruct (lt_eq_lt_dec j k) as [[H|H]|H]; [|exact H|].
  - specialize (B2 j H). specialize (A1 (nth k ts 0) ltac:(apply nth_In; exact L2)). lia.
  - specialize (B1 k H). specialize (A2 (nth j ts 0) ltac:(apply nth_In; exact L1)). lia.
Qed.

(** ** match_datetimes *)
Lemma match1_spec d ts maxdt : ts <> [] -> exists m, match1 d ts maxdt = Ok m /\
  (forall k, m = Some k <-> nearest_at d ts k /\ Z.abs (d - nth k ts 0) <= Z.abs maxdt) /\
  (m = None <-> forall t, In t ts -> Z.abs maxdt < Z.abs (d - t)).
Proof.
  intros N. unfold match1. destruct (argmin_nearest d ts N) as (k & E & H). rewrite E. cbn [bind]. eexists. split; [reflexivity|].
  pose proof H as (L & A & B). rewrite nth_dist by exact L.
  destruct (Z.ltb_spec (Z.abs maxdt) (Z.abs (d - nth k ts 0))) as [G|G].
  - split.
    + intros j. split; [discriminate|]. intros [Hj Gj]. rewrite (nearest_unique d ts j k Hj H) in Gj. lia.
    + split; [|reflexivity]. intros _ t Ht. specialize (A t Ht). lia.
  - split.
    + intros j. split; [intros [= <-]; auto|]. intros [Hj Gj]. f_equal. apply (nearest_unique d ts); auto.
    + split; [discriminate|]. intros F. specialize (F (nth k ts 0) ltac:(apply nth_In; exact L)). lia.
Qed.
Lemma match_datetimes_ok obs ds maxdt : Forall (fun ts => ts <> []) obs -> exists M, match_datetimes obs ds maxdt = Ok M /\
  length M = length ds /\ forall i d, nth_error ds i = Some d -> exists row, nth_error M i = Some row /\ length row = length obs /\
    forall j ts, nth_error obs j = Some ts -> exists m, nth_error row j = Some m /\ match1 d ts maxdt = Ok m.
Proof.
  intros F. unfold match_datetimes.
  assert (G : forall d, exists row, mapM (fun ts => match1 d ts maxdt) obs = Ok row).
  { intros d. induction F as [|ts obs N F IH]; [eexists; reflexivity|]. cbn [mapM]. destruct (match1_spec d ts maxdt N) as (m & E & _). rewrite E. destruct IH as [row ER]. cbn [bind]. rewrite ER. eexists; reflexivity. }
  assert (GM : exists M, mapM (fun d => mapM (fun ts => match1 d ts maxdt) obs) ds = Ok M).
  { induction ds as [|d ds IH]; [eexists; reflexivity|]. cbn [mapM]. destruct (G d) as [row E]. rewrite E. destruct IH as [M EM]. cbn [bind]. rewrite EM. eexists; reflexivity. }
  destruct GM as [M EM]. exists M. split; [exact EM|]. split; [apply (mapM_ok_length _ _ _ EM)|].
  intros i d Hd. destruct (mapM_ok_nth _ _ _ EM i d Hd) as (row & Er & Hr). exists row. split; [exact Hr|]. split; [apply (mapM_ok_length _ _ _ Er)|].
  intros j ts Hts. destruct (mapM_ok_nth _ _ _ Er j ts Hts) as (m & E1 & E2). exists m. auto.
Qed.

(** ** numpy.unique *)
Lemma zinsert_in x l y : In y (zinsert x l) <-> y = x \/ In y l.
Proof.
  induction l as [|z l IH]; cbn; [intuition|]. destruct (Z.ltb_spec x z); [cbn; intuition|]. destruct (Z.eqb_spec x z); [subst; cbn; intuition|]. cbn. rewrite IH. intuition.
Qed.
Lemma zinsert_sorted x l : StronglySorted Z.lt l -> StronglySorted Z.lt (zinsert x l).
Proof.
  induction 1 as [|z l S IH F]; cbn; [repeat constructor|]. destruct (Z.ltb_spec x z).
  - constructor; [constructor; auto|]. constructor; [lia|]. eapply Forall_impl; [|exact F]. cbn; intros; lia.
  - destruct (Z.eqb_spec x z); [constructor; auto|]. constructor; [exact IH|]. rewrite Forall_forall in *. intros y Hy. apply zinsert_in in Hy. destruct Hy as [->|Hy]; [lia|auto].
Qed.
Lemma zunique_in l y : In y (zunique l) <-> In y l.
Proof. induction l as [|x l IH]; cbn; [tauto|]. rewrite zinsert_in, IH. intuition. Qed.
Lemma zunique_sorted l : StronglySorted Z.lt (zunique l).
Proof. induction l as [|x l IH]; cbn; [constructor|apply zinsert_sorted, IH]. Qed.

(** ** parse_datetimes *)
Lemma neighbours_cons a b l : neighbours (a :: b :: l) = (b, a) :: neighbours (b :: l).
Proof. reflexivity. Qed.
Lemma monotone_le l : forallb (fun p => snd p <=? fst p) (neighbours l) = true <-> nondecreasing l.
Proof.
  unfold nondecreasing. induction l as [|a [|b l] IH]; [split; [constructor|reflexivity]|split; [repeat constructor|reflexivity]|].
  rewrite neighbours_cons. cbn [forallb fst snd]. rewrite andb_true_iff, IH, Z.leb_le. split.
  - intros [H S]. constructor; [exact S|]. constructor; [exact H|]. inversion S as [|? ? S' F]; subst. eapply Forall_impl; [|exact F]. cbn; intros; lia.
  - intros S. inversion S as [|? ? S' F]; subst. inversion F; subst. auto.
Qed.
Lemma monotone_ge l : forallb (fun p => fst p <=? snd p) (neighbours l) = true <-> nonincreasing l.
Proof.
  unfold nonincreasing. induction l as [|a [|b l] IH]; [split; [constructor|reflexivity]|split; [repeat constructor|reflexivity]|].
  rewrite neighbours_cons. cbn [forallb fst snd]. rewrite andb_true_iff, IH, Z.leb_le. split.
  - intros [H S]. constructor; [exact S|]. constructor; [lia|]. inversion S as [|? ? S' F]; subst. eapply Forall_impl; [|exact F]. cbn; intros; lia.
  - intros S. inversion S as [|? ? S' F]; subst. inversion F; subst. split; [lia|auto].
Qed.
Lemma monotonic_iff l : monotonic l = true <-> nondecreasing l \/ nonincreasing l.
Proof. unfold monotonic. rewrite orb_true_iff, monotone_le, monotone_ge. reflexivity. Qed.
Lemma mask_cons {A} (x : A) l b m : mask_list (x :: l) (b :: m) = if b then x :: mask_list l m else mask_list l m.
Proof. unfold mask_list. cbn. destruct b; reflexivity. Qed.
Lemma mask_map {A} (f : A -> bool) l : mask_list l (map f l) = filter f l.
Proof. induction l as [|x l IH]; [reflexivity|]. cbn [map]. rewrite mask_cons, IH. cbn. destruct (f x); reflexivity. Qed.
Lemma mask_incl {A} (l : list A) m x : In x (mask_list l m) -> In x l.
Proof. unfold mask_list. intros H. apply in_map_iff in H. destruct H as ([y b] & <- & H). apply filter_In in H. destruct H as [H _]. apply in_combine_l in H. exact H. Qed.
Lemma drop_dup_cons a b l : drop_duplicates (a :: b :: l) = a :: (if b =? a then tl (drop_duplicates (b :: l)) else drop_duplicates (b :: l)).
Proof. unfold drop_duplicates. rewrite neighbours_cons. cbn [map fst snd]. rewrite !mask_cons. f_equal. destruct (b =? a); reflexivity. Qed.
Lemma drop_dup_hd a l : exists r, drop_duplicates (a :: l) = a :: r.
Proof. unfold drop_duplicates. rewrite mask_cons. eexists. reflexivity. Qed.
Lemma drop_dup_in l x : In x (drop_duplicates l) <-> In x l.
Proof.
  induction l as [|a [|b l] IH]; [reflexivity|reflexivity|]. rewrite drop_dup_cons. destruct (drop_dup_hd b l) as [r E]. rewrite E in *.
  destruct (Z.eqb_spec b a) as [->|N]; cbn [tl In] in *; rewrite <- ?IH; tauto.
Qed.
Lemma drop_dup_inc l : nondecreasing l -> increasing (drop_duplicates l).
Proof.
  unfold increasing. induction l as [|a [|b l] IH]; intros S; [constructor|repeat constructor|]. rewrite drop_dup_cons. inversion S as [|? ? S' F]; subst.
  specialize (IH S'). pose proof (drop_dup_in (b :: l)) as I. destruct (drop_dup_hd b l) as [r E]. rewrite E in *. inversion IH as [|? ? S2 F2]; subst.
  destruct (Z.eqb_spec b a) as [->|N]; cbn [tl].
  - constructor; auto.
  - constructor; [exact IH|]. inversion F; subst. constructor; [lia|]. eapply Forall_impl; [|exact F2]. cbn; intros; lia.
Qed.
Lemma drop_dup_dec l : nonincreasing l -> decreasing (drop_duplicates l).
Proof.
  unfold decreasing. induction l as [|a [|b l] IH]; intros S; [constructor|repeat constructor|]. rewrite drop_dup_cons. inversion S as [|? ? S' F]; subst.
  specialize (IH S'). pose proof (drop_dup_in (b :: l)) as I. destruct (drop_dup_hd b l) as [r E]. rewrite E in *. inversion IH as [|? ? S2 F2]; subst.
  destruct (Z.eqb_spec b a) as [->|N]; cbn [tl].
  - constructor; auto.
  - constructor; [exact IH|]. inversion F; subst. constructor; [lia|]. eapply Forall_impl; [|exact F2]. cbn; intros; lia.
Qed.
Lemma filter_sorted {A} (R : A -> A -> Prop) f l : StronglySorted R l -> StronglySorted R (filter f l).
Proof.
  induction 1 as [|x l S IH F]; cbn; [constructor|]. destruct (f x); [|exact IH]. constructor; [exact IH|]. rewrite Forall_forall in *. intros y Hy. apply filter_In in Hy. apply F, Hy.
Qed.
Lemma fold_min_spec l x : fold_left Z.min l x <= x /\ (forall y, In y l -> fold_left Z.min l x <= y) /\ (fold_left Z.min l x = x \/ In (fold_left Z.min l x) l).
Proof.
  revert x. induction l as [|z l IH]; intros x; cbn [fold_left]; [split; [lia|]; split; [intros y []|auto]|].
  destruct (IH (Z.min x z)) as (A & B & C). split; [lia|]. split.
  - intros y [<-|Hy]; [lia|auto].
  - destruct C as [C|C]; [|right; right; exact C]. destruct (Z.min_spec x z) as [[_ M]|[_ M]]; [left; congruence|right; left; congruence].
Qed.
Lemma min_distance_spec d ts : ts <> [] -> exists m, min_distance d ts = Ok m /\ forall tol, m <= tol <-> exists t, In t ts /\ Z.abs (d - t) <= tol.
Proof.
  intros N. unfold min_distance. destruct ts as [|t ts]; [congruence|]. cbn [map]. eexists. split; [reflexivity|].
  destruct (fold_min_spec (map (fun t => Z.abs (d - t)) ts) (Z.abs (d - t))) as (A & B & C). intros tol. split.
  - intros H. destruct C as [C|C]; [exists t; split; [left; reflexivity|lia]|]. apply in_map_iff in C. destruct C as (t' & E & I). exists t'. split; [right; exact I|lia].
  - intros (t' & [->|I] & H); [lia|]. specialize (B (Z.abs (d - t')) ltac:(apply in_map_iff; eauto)). lia.
Qed.
Definition near (all : list Z) (maxdt d : Z) : bool := match min_distance d all with Ok x => x <=? Z.abs maxdt | Err _ => false end.
Lemma parse_eq obs ds maxdt : obs <> [] -> concat obs <> [] -> parse_datetimes obs ds maxdt =
  if monotonic ds then let r := filter (near (zunique (concat obs)) maxdt) (drop_duplicates ds) in if (length r <? 2)%nat then Err ValueError else Ok r else Err ValueError.
Proof.
  intros N1 N2. unfold parse_datetimes. destruct (monotonic ds); [|reflexivity]. cbn [negb]. unfold tracker_datetimes. destruct obs as [|o obs]; [congruence|]. cbn [bind].
  set (all := zunique (concat (o :: obs))).
  assert (Na : all <> []).
  { intros E. destruct (concat (o :: obs)) as [|t r] eqn:Ec; [congruence|]. assert (In t all) by (unfold all; apply zunique_in; left; reflexivity). rewrite E in H. contradiction. }
  assert (Q : forall l, exists dist, mapM (fun d => min_distance d all) l = Ok dist /\ map (fun x => x <=? Z.abs maxdt) dist = map (near all maxdt) l).
  { induction l as [|d l (dist & E & M)]; [exists []; auto|]. cbn [mapM]. destruct (min_distance_spec d all Na) as (m & Em & _). rewrite Em, E. cbn [bind]. exists (m :: dist). split; [reflexivity|]. cbn [map]. rewrite M. unfold near at 2. rewrite Em. reflexivity. }
  destruct (Q (drop_duplicates ds)) as (dist & E & M). rewrite E. cbn [bind]. rewrite M, mask_map. reflexivity.
Qed.
Lemma near_iff obs maxdt d : obs <> [] -> concat obs <> [] -> near (zunique (concat obs)) maxdt d = true <-> has_image obs maxdt d.
Proof.
  intros N1 N2. assert (Na : zunique (concat obs) <> []).
  { intros E. destruct (concat obs) as [|t r] eqn:Ec; [congruence|]. assert (In t (zunique (t :: r))) by (apply zunique_in; left; reflexivity). rewrite E in H. contradiction. }
  unfold near. destruct (min_distance_spec d _ Na) as (m & E & H). rewrite E, Z.leb_le, H. unfold has_image. split.
  - intros (t & I & L). apply (proj1 (zunique_in _ _)) in I. apply in_concat in I. destruct I as (ts & I1 & I2). exists ts, t. auto.
  - intros (ts & t & I1 & I2 & L). exists t. split; [|exact L]. apply zunique_in, in_concat. eauto.
Qed.

(** ** Observer *)
Lemma collect_ok imgs : (exists ts, collect_times imgs = Ok ts /\ map im_time imgs = map Some ts) \/ (collect_times imgs = Err ValueError /\ exists i, In i imgs /\ im_time i = None).
Proof.
  induction imgs as [|i imgs IH]; [left; exists []; auto|]. cbn [collect_times]. destruct (im_time i) as [t|] eqn:E.
  - destruct IH as [(ts & E1 & E2)|(E1 & j & I & J)]; rewrite E1; cbn [bind].
    + left. exists (t :: ts). split; [reflexivity|]. cbn. rewrite E, E2. reflexivity.
    + right. split; [reflexivity|]. exists j. split; [right; exact I|exact J].
  - right. split; [reflexivity|]. exists i. split; [left; reflexivity|exact E].
Qed.
Lemma diff_sorted ts : existsb (fun d => d <=? 0) (Zdiff ts) = false <-> increasing ts.
Proof.
  unfold increasing, Zdiff. induction ts as [|a [|b l] IH]; [split; [constructor|reflexivity]|split; [repeat constructor|reflexivity]|].
  cbn [tl map2 existsb] in *. rewrite orb_false_iff, IH, Z.leb_gt. split.
  - intros [H S]. constructor; [exact S|]. inversion S as [|? ? S' F]; subst. constructor; [lia|]. eapply Forall_impl; [|exact F]. cbn; intros; lia.
  - intros S. inversion S as [|? ? S' F]; subst. inversion F; subst. split; [lia|auto].
Qed.
Lemma map_Some_inj {A} (l m : list A) : map Some l = map Some m -> l = m.
Proof. revert m. induction l as [|x l IH]; intros [|y m]; cbn; intros E; try discriminate; [reflexivity|]. injection E as -> E. f_equal. auto. Qed.
Lemma Observer_spec imgs :
  (forall ts, (2 <= length imgs)%nat -> map im_time imgs = map Some ts -> increasing ts -> Observer imgs = Ok (mk_observer imgs ts)) /\
  (forall o, Observer imgs = Ok o -> ob_images o = imgs /\ (2 <= length imgs)%nat /\ map im_time imgs = map Some (ob_times o) /\ increasing (ob_times o)) /\
  (forall e, Observer imgs = Err e -> e = ValueError).
Proof.
  unfold Observer. destruct (Nat.ltb_spec (length imgs) 2) as [L|L].
  { split; [intros; lia|]. split; [discriminate|]. intros e [= <-]. reflexivity. }
  destruct (collect_ok imgs) as [(ts & E1 & E2)|(E1 & j & I & J)]; rewrite E1; cbn [bind].
  - destruct (existsb _ _) eqn:Ed.
    + split; [|split; [discriminate|intros e [= <-]; reflexivity]]. intros ts' _ E3 S. rewrite E2 in E3. apply map_Some_inj in E3. subst ts'. apply diff_sorted in S. congruence.
    + split; [|split]; [intros ts' _ E3 S; rewrite E2 in E3; apply map_Some_inj in E3; subst; reflexivity| |discriminate].
      intros o [= <-]. cbn. split; [reflexivity|]. split; [exact L|]. split; [exact E2|]. apply diff_sorted. exact Ed.
  - split; [|split; [discriminate|intros e [= <-]; reflexivity]]. intros ts _ E3 _. exfalso. apply (in_map im_time) in I. rewrite E3, J in I. apply in_map_iff in I. destruct I as (x & Ex & _). discriminate.
Qed.
